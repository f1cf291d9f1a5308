(** C108: pam_setquota sets the disk quota of a user. *)
From Coq Require Import String Ascii List Arith ZArith Bool Lia.
From Verif Require Import Base Num_Model Str_Model Str_Facts Opt_Model Opt_Facts Flconf_Props Setquota_Model.
Import ListNotations.
Local Open Scope Z_scope.

(** ** Spec: options *)
Definition names (key : cstr) (args : list cstr) : Prop := exists s, In (key ++ s)%list args.
(** A number that is the whole value, in 64 bits. *)
Definition whole (s : cstr) (n : Z) : Prop := exists neg v, signed 10 s neg v [] /\ n = (if neg : bool then - v else v) /\ - 2 ^ 63 <= n < 2 ^ 63.
(** A limit: a number that is not negative, anything else counts as 0. *)
Definition limit (s : cstr) (n : Z) : Prop := (whole s n /\ 0 <= n) \/ ((forall m, whole s m -> m < 0) /\ n = 0).
Definition gives_limit (key a : cstr) (n : Z) : Prop := exists s, a = (key ++ s)%list /\ limit s n.
Definition uid_number (s : cstr) (v : Z) : Prop := exists neg n, signed 10 s neg n [] /\ v = ulong neg n /\ v < 2 ^ 32 - 1.
Definition gives_uid (key a : cstr) (v : Z) : Prop := exists s, a = (key ++ s)%list /\ uid_number s v.
Definition in_int (x n : Z) : Prop := - 2 ^ 31 <= n < 2 ^ 31 /\ exists k, x = n + k * 2 ^ 32.
Definition gives_overwrite (a : cstr) (n : Z) : Prop := exists s, a = (lit "overwrite=" ++ s)%list /\ ((exists x, whole s x /\ in_int x n /\ 0 <= n) \/ ((forall x m, whole s x -> in_int x m -> m < 0) /\ n = 0)).
Definition gives_fs (a : cstr) (f : option cstr) : Prop := exists s, a = (lit "fs=" ++ s)%list /\
  ((exists t, t <> [] /\ s = (t ++ lit "/")%list /\ f = Some t) \/ ((forall t, t <> [] -> s <> (t ++ lit "/")%list) /\ f = Some s)).
(** The first uid of the range, without an option. *)
Definition default_start (E : env) (s : Z) : Prop := (exists v, e_min E = Some v /\ uid_number v s) \/ ((forall v n, e_min E = Some v -> ~ uid_number v n) /\ s = e_uidmin E).
(** The user is one the module cares about. *)
Definition concerned (E : env) (args : list cstr) (uid : Z) : Prop := exists d s e, default_start E d /\ latest (gives_uid (lit "startuid=")) args d s /\ latest (gives_uid (lit "enduid=")) args 0 e /\
  s <= uid /\ (s = 0 \/ e < s \/ uid <= e).
Definition overwrites (args : list cstr) : Prop := latest gives_overwrite args 0 1.
(** ** Spec: file systems *)
Definition slashes (s : cstr) : Prop := forall c, In c s -> c = "/"%char.
Definition rooted (dir : cstr) : Prop := dir <> [] /\ slashes dir.
(** [m] is the directory without slashes at its end. *)
Definition base (dir m : cstr) : Prop := exists t, dir = (m ++ t)%list /\ slashes t /\ forall r, m <> (r ++ lit "/")%list.
(** The home directory is below the directory. *)
Definition below (home dir : cstr) : Prop := dir <> [] /\ exists m r, base dir m /\ home = (m ++ "/"%char :: r)%list.
Definition depth (dir : cstr) (n : nat) : Prop := exists m, base dir m /\ length m = n.
(** The file system of the home directory, as the module sees it: the first of the deepest ones that hold it, but only those from the last root directory on count. *)
Definition chosen (home : cstr) (ms : list (cstr * cstr)) (dev : cstr) (n : nat) : Prop := exists a r x dir y, ms = (a ++ r)%list /\ r = (x ++ (dev, dir) :: y)%list /\
  (a = [] \/ exists e r', r = e :: r' /\ rooted (snd e) /\ below home (snd e)) /\ (forall e, In e (tl r) -> ~ (rooted (snd e) /\ below home (snd e))) /\
  below home dir /\ depth dir n /\ (forall e k, In e x -> below home (snd e) -> depth (snd e) k -> (k < n)%nat) /\ (forall e k, In e y -> below home (snd e) -> depth (snd e) k -> (k <= n)%nat).
(** The file system named by fs=: the last one with this directory or device. *)
Definition named_fs (f : cstr) (e : cstr * cstr) (d : option cstr) : Prop := (snd e = f \/ fst e = f) /\ d = Some (fst e).
Definition device (E : env) (args : list cstr) (home : cstr) (ms : list (cstr * cstr)) (dev : cstr) : Prop := exists f, latest gives_fs args None f /\
  match f with None => exists n, chosen home ms dev n | Some f => latest (named_fs f) ms None (Some dev) end.
Definition no_device (E : env) (args : list cstr) (home : cstr) (ms : list (cstr * cstr)) : Prop := exists f, latest gives_fs args None f /\
  match f with None => forall e, In e ms -> ~ below home (snd e) | Some f => latest (named_fs f) ms None None end.
Definition unlimited (b : block) : Prop := b_bsoft b = 0 /\ b_bhard b = 0 /\ b_isoft b = 0 /\ b_ihard b = 0.
(** Soft and hard limits are given together. *)
Definition paired (args : list cstr) : Prop := (names (lit "bhardlimit=") args <-> names (lit "bsoftlimit=") args) /\ (names (lit "ihardlimit=") args <-> names (lit "isoftlimit=") args).
Definition some_limit (args : list cstr) : Prop := names (lit "bhardlimit=") args \/ names (lit "ihardlimit=") args \/ names (lit "btime=") args \/ names (lit "itime=") args.
(** The new limits: those of the options in place of the old ones. *)
Definition new_limits (args : list cstr) (b b' : block) (v : valid) : Prop :=
  latest (gives_limit (lit "bhardlimit=")) args (b_bhard b) (b_bhard b') /\ latest (gives_limit (lit "bsoftlimit=")) args (b_bsoft b) (b_bsoft b') /\
  latest (gives_limit (lit "ihardlimit=")) args (b_ihard b) (b_ihard b') /\ latest (gives_limit (lit "isoftlimit=")) args (b_isoft b) (b_isoft b') /\
  latest (gives_limit (lit "btime=")) args (b_btime b) (b_btime b') /\ latest (gives_limit (lit "itime=")) args (b_itime b) (b_itime b') /\
  (v_b v = true <-> names (lit "bhardlimit=") args \/ names (lit "bsoftlimit=") args) /\ (v_i v = true <-> names (lit "ihardlimit=") args \/ names (lit "isoftlimit=") args) /\
  (v_bt v = true <-> names (lit "btime=") args) /\ (v_it v = true <-> names (lit "itime=") args).

(** ** Numbers *)
Lemma strtoll_spec : forall s, match strtoll s with
  | Some (Some x, []) => forall m, whole s m <-> m = x
  | _ => forall m, ~ whole s m end.
Proof.
  intro s. unfold strtoll, whole. destruct (sign (skip_spaces s)) as [neg s1] eqn:SG. destruct (digits_in 10 s1 0 0) as [[v n] r] eqn:D. cbv zeta.
  destruct n as [|n]; cbn [Nat.eqb].
  - intros m (neg' & v' & G & _). apply conv_signed in G; [|lia]. destruct G as (s2 & k & X & Y). rewrite SG in X. injection X as <- <-. rewrite D in Y. discriminate.
  - assert (G : signed 10 s neg v r) by (apply conv_signed; [lia|]; exists s1, n; auto).
    assert (U : forall neg' v' r', signed 10 s neg' v' r' -> neg' = neg /\ v' = v /\ r' = r) by (intros neg' v' r' G'; destruct (signed_unique 10 _ _ _ _ _ _ _ ltac:(lia) G' G) as (-> & -> & ->); auto).
    destruct ((LONG_MIN <=? (if neg then - v else v)) && ((if neg then - v else v) <=? LONG_MAX)) eqn:R.
    + apply andb_true_iff in R. destruct R as (R1 & R2). apply Z.leb_le in R1, R2. unfold LONG_MIN, LONG_MAX in R1, R2. destruct r as [|c r].
      * intro m. split; [intros (neg' & v' & G' & -> & _); apply U in G'; destruct G' as (-> & -> & _); reflexivity|]. intros ->. exists neg, v. split; [exact G|]. split; [reflexivity|lia].
      * intros m (neg' & v' & G' & _). apply U in G'. destruct G' as (_ & _ & X). discriminate.
    + intros m (neg' & v' & G' & -> & B). apply U in G'. destruct G' as (-> & -> & _). assert (X : (LONG_MIN <=? (if neg then - v else v)) && ((if neg then - v else v) <=? LONG_MAX) = true); [|congruence].
      apply andb_true_iff. split; apply Z.leb_le; unfold LONG_MIN, LONG_MAX; lia.
Qed.
Lemma num_spec : forall s, limit s (str_to_dqb_num s).
Proof.
  intro s. unfold limit, str_to_dqb_num. pose proof (strtoll_spec s) as H. destruct (strtoll s) as [([x|], [|c r])|]; try (right; split; [intros m X; destruct (H m X)|reflexivity]).
  destruct (Z.ltb_spec x 0) as [L|L].
  - right. split; [|reflexivity]. intros m X. apply H in X. lia.
  - left. split; [apply H; reflexivity|exact L].
Qed.
Lemma uid_spec : forall s d, match strtoul 10 s with (v, Some []) => if MAX_UID_VALUE <=? v then None else Some v | _ => None end = None /\ str_to_uid s d = d /\ (forall v, ~ uid_number s v) \/ uid_number s (str_to_uid s d).
Proof.
  intros s d. unfold str_to_uid, uid_number. destruct (strtoul 10 s) as [v [rest|]] eqn:Q.
  - apply strtoul_some in Q; [|lia]. destruct Q as (neg & n & G & ->).
    assert (U : forall neg' v' r', signed 10 s neg' v' r' -> neg' = neg /\ v' = n /\ r' = rest) by (intros neg' v' r' G'; destruct (signed_unique 10 _ _ _ _ _ _ _ ltac:(lia) G' G) as (-> & -> & ->); auto).
    destruct rest as [|c rest]; [|left; split; [reflexivity|]; split; [reflexivity|]; intros v (neg' & n' & G' & _); apply U in G'; destruct G' as (_ & _ & X); discriminate].
    unfold MAX_UID_VALUE. destruct (Z.leb_spec 4294967295 (ulong neg n)) as [L|L].
    + left. split; [reflexivity|]. split; [reflexivity|]. intros v (neg' & n' & G' & -> & B). apply U in G'. destruct G' as (-> & -> & _). lia.
    + right. exists neg, n. split; [exact G|]. split; [reflexivity|lia].
  - apply strtoul_none in Q; [|lia]. destruct Q as (_ & Q). left. split; [reflexivity|]. split; [reflexivity|]. intros w (neg & n & G & _). exact (Q _ _ _ G).
Qed.
Lemma to_int_spec : forall x n, in_int x n <-> n = to_int x.
Proof.
  intros x n. unfold in_int, to_int. pose proof (Z.mod_pos_bound (x + 2 ^ 31) (2 ^ 32) ltac:(lia)) as B. split.
  - intros (R & k & ->). replace (n + k * 2 ^ 32 + 2 ^ 31) with (n + 2 ^ 31 + k * 2 ^ 32) by lia. rewrite Z.mod_add by lia. rewrite Z.mod_small by lia. lia.
  - intros ->. split; [lia|]. exists ((x + 2 ^ 31) / 2 ^ 32). pose proof (Z.div_mod (x + 2 ^ 31) (2 ^ 32) ltac:(lia)). lia.
Qed.

(** ** Options *)
Ltac other_key := right; split; [intros ? (? & X & _); discriminate X|reflexivity].
Ltac limit_cases a :=
  destruct (skip_prefix (lit "bhardlimit=") a) as [s1|] eqn:A1; [apply skip_prefix_some in A1; subst a|apply skip_prefix_none in A1;
  destruct (skip_prefix (lit "bsoftlimit=") a) as [s2|] eqn:A2; [apply skip_prefix_some in A2; subst a|apply skip_prefix_none in A2;
  destruct (skip_prefix (lit "ihardlimit=") a) as [s3|] eqn:A3; [apply skip_prefix_some in A3; subst a|apply skip_prefix_none in A3;
  destruct (skip_prefix (lit "isoftlimit=") a) as [s4|] eqn:A4; [apply skip_prefix_some in A4; subst a|apply skip_prefix_none in A4;
  destruct (skip_prefix (lit "btime=") a) as [s5|] eqn:A5; [apply skip_prefix_some in A5; subst a|apply skip_prefix_none in A5;
  destruct (skip_prefix (lit "itime=") a) as [s6|] eqn:A6; [apply skip_prefix_some in A6; subst a|apply skip_prefix_none in A6]]]]]]; cbn.
Ltac limit_step := let t := fresh "t" in let a := fresh "a" in intros t a _; destruct t as [[? ? ? ? ? ?] [? ? ? ?] ? ? ? ?]; unfold gives_limit, parse_limit; limit_cases a;
  try other_key; try (left; eexists; split; [reflexivity|apply num_spec]); right; split; [intros ? (? & -> & _); match goal with H : ~ (exists r, _) |- _ => solve [apply H; eexists; reflexivity] end|reflexivity].
Ltac flag_step := let t := fresh "t" in let a := fresh "a" in let HH := fresh "HH" in intros t a; destruct t as [[? ? ? ? ? ?] [? ? ? ?] ? ? ? ?]; unfold parse_limit; limit_cases a; split; intro HH;
  try (right; exact HH); try reflexivity; try (left; eexists; reflexivity); try (left; left; eexists; reflexivity); try (left; right; eexists; reflexivity);
  try (destruct HH as [HH|HH]; [|exact HH]); try (destruct HH as [HH|HH]); destruct HH as (? & HH); (discriminate HH || (subst; match goal with H : ~ (exists r, _) |- _ => solve [exfalso; apply H; eexists; reflexivity] end)).
Lemma names_iff : forall key args, (exists s, In s args /\ exists r, s = (key ++ r)%list) <-> names key args.
Proof. intros key args. unfold names. split; [intros (s & I & r & ->); eauto|intros (r & I); eauto]. Qed.
Definition begin (b : block) : parsed := mkParsed b (mkValid false false false false) false false false false.
Lemma key_flag : forall (val : parsed -> bool) key args b, (forall t a, val (parse_limit t a) = true <-> (exists r, a = (key ++ r)%list) \/ val t = true) -> val (begin b) = false ->
  (val (fold_left parse_limit args (begin b)) = true <-> names key args).
Proof.
  intros val key args b H Z. rewrite (flag_fold (fun a => exists r, a = (key ++ r)%list) parse_limit val H args), Z, names_iff. split; [intros [X|X]; [exact X|discriminate]|auto].
Qed.
Lemma key_flag2 : forall (val : parsed -> bool) k1 k2 args b, (forall t a, val (parse_limit t a) = true <-> ((exists r, a = (k1 ++ r)%list) \/ (exists r, a = (k2 ++ r)%list)) \/ val t = true) -> val (begin b) = false ->
  (val (fold_left parse_limit args (begin b)) = true <-> names k1 args \/ names k2 args).
Proof.
  intros val k1 k2 args b H Z. rewrite (flag_fold (fun a => (exists r, a = (k1 ++ r)%list) \/ (exists r, a = (k2 ++ r)%list)) parse_limit val H args), Z, <- !names_iff. split.
  - intros [(s & I & [X|X])|X]; [left; eauto|right; eauto|discriminate].
  - intros [(s & I & X)|(s & I & X)]; left; exists s; auto.
Qed.
Lemma limits_spec : forall args b, match parse_dqblk args b with Some (b', v) => paired args /\ new_limits args b b' v | None => ~ paired args end.
Proof.
  intros args b. unfold parse_dqblk. change (mkParsed b (mkValid false false false false) false false false false) with (begin b). set (p := fold_left parse_limit args (begin b)).
  assert (F1 : p_bhard p = true <-> names (lit "bhardlimit=") args) by (apply key_flag; [flag_step|reflexivity]).
  assert (F2 : p_bsoft p = true <-> names (lit "bsoftlimit=") args) by (apply key_flag; [flag_step|reflexivity]).
  assert (F3 : p_ihard p = true <-> names (lit "ihardlimit=") args) by (apply key_flag; [flag_step|reflexivity]).
  assert (F4 : p_isoft p = true <-> names (lit "isoftlimit=") args) by (apply key_flag; [flag_step|reflexivity]).
  assert (X : forall (x y : bool) P Q, (x = true <-> P) -> (y = true <-> Q) -> negb (xorb x y) = true <-> (P <-> Q)).
  { intros x y P Q H1 H2. rewrite <- H1, <- H2. destruct x, y; cbn; intuition congruence. }
  destruct (negb (xorb (p_bhard p) (p_bsoft p)) && negb (xorb (p_ihard p) (p_isoft p))) eqn:Y.
  - apply andb_true_iff in Y. destruct Y as (Y1 & Y2). split; [split; [apply (X _ _ _ _ F1 F2), Y1|apply (X _ _ _ _ F3 F4), Y2]|]. unfold new_limits, p. clear.
    split; [apply (latest_fold (gives_limit (lit "bhardlimit=")) parse_limit (fun p => b_bhard (p_block p))) with (t := begin b); limit_step|].
    split; [apply (latest_fold (gives_limit (lit "bsoftlimit=")) parse_limit (fun p => b_bsoft (p_block p))) with (t := begin b); limit_step|].
    split; [apply (latest_fold (gives_limit (lit "ihardlimit=")) parse_limit (fun p => b_ihard (p_block p))) with (t := begin b); limit_step|].
    split; [apply (latest_fold (gives_limit (lit "isoftlimit=")) parse_limit (fun p => b_isoft (p_block p))) with (t := begin b); limit_step|].
    split; [apply (latest_fold (gives_limit (lit "btime=")) parse_limit (fun p => b_btime (p_block p))) with (t := begin b); limit_step|].
    split; [apply (latest_fold (gives_limit (lit "itime=")) parse_limit (fun p => b_itime (p_block p))) with (t := begin b); limit_step|].
    split; [apply (key_flag2 (fun p => v_b (p_valid p))); [flag_step|reflexivity]|]. split; [apply (key_flag2 (fun p => v_i (p_valid p))); [flag_step|reflexivity]|].
    split; [apply (key_flag (fun p => v_bt (p_valid p))); [flag_step|reflexivity]|apply (key_flag (fun p => v_it (p_valid p))); [flag_step|reflexivity]].
  - intros (P1 & P2). apply (X _ _ _ _ F1 F2) in P1. apply (X _ _ _ _ F3 F4) in P2. rewrite P1, P2 in Y. discriminate.
Qed.

(** ** The other options *)
Ltac key_step := let t := fresh "t" in let a := fresh "a" in intros t a _; unfold parse_param;
  destruct (skip_prefix (lit "startuid=") a) as [s1|] eqn:A1; [apply skip_prefix_some in A1; subst a|apply skip_prefix_none in A1;
  destruct (skip_prefix (lit "enduid=") a) as [s2|] eqn:A2; [apply skip_prefix_some in A2; subst a|apply skip_prefix_none in A2;
  destruct (skip_prefix (lit "fs=") a) as [s3|] eqn:A3; [apply skip_prefix_some in A3; subst a|apply skip_prefix_none in A3;
  destruct (skip_prefix (lit "overwrite=") a) as [s4|] eqn:A4; [apply skip_prefix_some in A4; subst a|apply skip_prefix_none in A4]]]]; cbn [q_start q_end q_fs q_over];
  try other_key; try (right; split; [intros ? (? & -> & _); match goal with H : ~ (exists r, _) |- _ => solve [apply H; eexists; reflexivity] end|reflexivity]).
Lemma start_latest : forall args q, latest (gives_uid (lit "startuid=")) args (q_start q) (q_start (fold_left parse_param args q)).
Proof.
  intros args q. apply (latest_fold (gives_uid (lit "startuid=")) parse_param q_start) with (t := q). unfold gives_uid. key_step.
  destruct (uid_spec s1 (q_start t)) as [(_ & -> & N)|U]; [right; split; [intros v (s & X & Y); apply app_inv_head in X; subst s; exact (N _ Y)|reflexivity]|left; eexists; split; [reflexivity|exact U]].
Qed.
Lemma end_latest : forall args q, latest (gives_uid (lit "enduid=")) args (q_end q) (q_end (fold_left parse_param args q)).
Proof.
  intros args q. apply (latest_fold (gives_uid (lit "enduid=")) parse_param q_end) with (t := q). unfold gives_uid. key_step.
  destruct (uid_spec s2 (q_end t)) as [(_ & -> & N)|U]; [right; split; [intros v (s & X & Y); apply app_inv_head in X; subst s; exact (N _ Y)|reflexivity]|left; eexists; split; [reflexivity|exact U]].
Qed.
Lemma over_latest : forall args q, latest gives_overwrite args (q_over q) (q_over (fold_left parse_param args q)).
Proof.
  intros args q. apply (latest_fold gives_overwrite parse_param q_over) with (t := q). unfold gives_overwrite. key_step. left. eexists. split; [reflexivity|].
  pose proof (strtoll_spec s4) as H. destruct (strtoll s4) as [([x|], [|c r])|]; try (right; split; [intros x' m X; destruct (H _ X)|reflexivity]).
  destruct (Z.ltb_spec (to_int x) 0) as [L|L].
  - right. split; [|reflexivity]. intros x' m X Y. apply H in X. subst x'. apply to_int_spec in Y. lia.
  - left. exists x. split; [apply H; reflexivity|]. split; [apply to_int_spec; reflexivity|exact L].
Qed.
Lemma fs_latest : forall args q, latest gives_fs args (q_fs q) (q_fs (fold_left parse_param args q)).
Proof.
  intros args q. apply (latest_fold gives_fs parse_param q_fs) with (t := q). unfold gives_fs. key_step. left. eexists. split; [reflexivity|].
  destruct ((1 <? length s3)%nat && Ascii.eqb (last s3 NUL) c_slash) eqn:C.
  - apply andb_true_iff in C. destruct C as (L & C). apply Nat.ltb_lt in L. apply Ascii.eqb_eq in C. assert (NE : s3 <> []) by (intros ->; cbn in L; lia).
    pose proof (app_removelast_last NUL NE) as X. rewrite C in X. left. exists (removelast s3). split; [|split; [exact X|reflexivity]]. intro Z. rewrite Z in X. rewrite X in L. cbn in L. lia.
  - right. split; [|reflexivity]. intros t0 NE ->. apply andb_false_iff in C. destruct C as [C|C].
    + apply Nat.ltb_ge in C. rewrite app_length in C. destruct t0; [contradiction|cbn in C; lia].
    + change (lit "/") with ["/"%char] in C. rewrite last_last in C. discriminate.
Qed.

(** ** Directories *)
Lemma masked_base : forall dir, base dir (masked dir).
Proof.
  intro dir. unfold base, masked. destruct (span (fun c => Ascii.eqb c c_slash) (rev dir)) as [u w] eqn:Q. destruct (span_app _ _ _ _ Q) as (Q1 & A & B). cbn [snd].
  exists (rev u). split; [|split].
  - rewrite <- rev_app_distr, <- Q1, rev_involutive. reflexivity.
  - intros c I. apply in_rev in I. rewrite forallb_forall in A. apply A in I. apply Ascii.eqb_eq in I. exact I.
  - intros r X. apply (f_equal (@rev ascii)) in X. rewrite rev_involutive, rev_app_distr in X. cbn in X. destruct B as [B|(c & b' & B & N)]; rewrite X in B; [discriminate|]. injection B as <- <-. discriminate.
Qed.
Lemma no_slash_end : forall m1 m2 u, m1 = (m2 ++ u)%list -> slashes u -> (forall r, m1 <> (r ++ lit "/")%list) -> u = [].
Proof.
  intros m1 m2 u -> S N. destruct u as [|c u] using rev_ind; [reflexivity|]. exfalso. rewrite (S c) in N by (apply in_or_app; right; left; reflexivity). apply (N (m2 ++ u)%list). rewrite <- app_assoc. reflexivity.
Qed.
Lemma base_unique : forall dir m1 m2, base dir m1 -> base dir m2 -> m1 = m2.
Proof.
  intros dir m1 m2 (t1 & E1 & S1 & N1) (t2 & E2 & S2 & N2). rewrite E1 in E2. clear E1. assert (X : exists l, (m1 = (m2 ++ l)%list /\ t2 = (l ++ t1)%list) \/ (m2 = (m1 ++ l)%list /\ t1 = (l ++ t2)%list)) by (apply app_eq_app, E2).
  destruct X as (l & [(A & B)|(A & B)]).
  - assert (L0 : l = []) by (apply (no_slash_end _ _ _ A); [intros c I; apply S2; rewrite B; apply in_or_app; auto|exact N1]). subst l. rewrite app_nil_r in A. exact A.
  - assert (L0 : l = []) by (apply (no_slash_end _ _ _ A); [intros c I; apply S1; rewrite B; apply in_or_app; auto|exact N2]). subst l. rewrite app_nil_r in A. auto.
Qed.
Lemma depth_iff : forall dir n, depth dir n <-> n = length (masked dir).
Proof. intros dir n. split; [intros (m & B & <-); rewrite (base_unique _ _ _ B (masked_base dir)); reflexivity|intros ->; exists (masked dir); split; [apply masked_base|reflexivity]]. Qed.
Lemma rooted_iff : forall dir, rooted dir <-> length (masked dir) = 0%nat /\ dir <> [].
Proof.
  intro dir. unfold rooted. split.
  - intros (N & S). split; [|exact N]. assert (B : base dir []) by (exists dir; split; [reflexivity|]; split; [exact S|intros r X; destruct r; discriminate]). rewrite (base_unique _ _ _ (masked_base dir) B). reflexivity.
  - intros (L & N). split; [exact N|]. destruct (masked_base dir) as (t & X & S & _). destruct (masked dir); [|discriminate]. cbn in X. subst t. exact S.
Qed.
Lemma below_iff : forall home dir, below home dir <-> dir <> [] /\ match skip_prefix (masked dir) home with Some ("/"%char :: _) => True | _ => False end.
Proof.
  intros home dir. unfold below. split.
  - intros (N & m & r & B & ->). split; [exact N|]. rewrite (base_unique _ _ _ B (masked_base dir)). destruct (skip_prefix (masked dir) (masked dir ++ "/"%char :: r)%list) as [s|] eqn:P.
    + apply skip_prefix_some in P. apply app_inv_head in P. subst s. exact I.
    + apply skip_prefix_none in P. apply P. eauto.
  - intros (N & H). split; [exact N|]. destruct (skip_prefix (masked dir) home) as [[|c s]|] eqn:P; try contradiction. apply skip_prefix_some in P. exists (masked dir), s. split; [apply masked_base|].
    destruct (Ascii.eqb_spec c "/"%char) as [->|NC]; [exact P|]. exfalso. destruct c as [b0 b1 b2 b3 b4 b5 b6 b7]. destruct b0, b1, b2, b3, b4, b5, b6, b7; try contradiction; apply NC; reflexivity.
Qed.
Definition matches (home dir : cstr) (size : nat) : bool :=
  ((size <? length (masked dir))%nat || (Nat.eqb (length (masked dir)) 0 && match dir with "/"%char :: _ => true | _ => false end)) && match skip_prefix (masked dir) home with Some ("/"%char :: _) => true | _ => false end.
Lemma first_slash : forall dir, length (masked dir) = 0%nat -> dir <> [] -> match dir with "/"%char :: _ => true | _ => false end = true.
Proof. intros dir L N. destruct (proj2 (rooted_iff dir) (conj L N)) as (_ & S). destruct dir as [|c dir]; [contradiction|]. rewrite (S c) by (left; reflexivity). reflexivity. Qed.
Lemma matches_iff : forall home dir size, matches home dir size = true <-> below home dir /\ ((size < length (masked dir))%nat \/ rooted dir).
Proof.
  intros home dir size. unfold matches. rewrite below_iff, rooted_iff, andb_true_iff, orb_true_iff, andb_true_iff, Nat.ltb_lt, Nat.eqb_eq. split.
  - intros (A & B). assert (N : dir <> []) by (intros ->; destruct A as [A|(_ & A)]; [cbn in A; lia|discriminate]). split; [split; [exact N|]|tauto].
    destruct (skip_prefix (masked dir) home) as [[|c s]|]; try discriminate. destruct c as [b0 b1 b2 b3 b4 b5 b6 b7]. destruct b0, b1, b2, b3, b4, b5, b6, b7; try discriminate; exact I.
  - intros ((N & B) & A). split; [destruct A as [A|(A & _)]; [left; exact A|right; split; [exact A|apply first_slash; assumption]]|].
    destruct (skip_prefix (masked dir) home) as [[|c s]|]; try contradiction. destruct c as [b0 b1 b2 b3 b4 b5 b6 b7]. destruct b0, b1, b2, b3, b4, b5, b6, b7; try contradiction; reflexivity.
Qed.
(** What is known after the first file systems. *)
Definition seen (home : cstr) (ms : list (cstr * cstr)) (found : option cstr) (size : nat) : Prop :=
  match found with None => size = 0%nat /\ forall e, In e ms -> ~ below home (snd e) | Some dev => chosen home ms dev size end.
Lemma seen_skip : forall home ms found size dev dir, matches home dir size = false -> seen home ms found size -> seen home (ms ++ [(dev, dir)]) found size.
Proof.
  intros home ms found size dev dir M H. assert (K : below home dir -> (length (masked dir) <= size)%nat /\ ~ rooted dir).
  { intro B. split; [destruct (Nat.le_gt_cases (length (masked dir)) size) as [L|L]; [exact L|]|intro R]; exfalso; assert (matches home dir size = true) by (apply matches_iff; auto); congruence. }
  destruct found as [d|]; cbn [seen] in *.
  - destruct H as (a & r & x & dr & y & -> & -> & H1 & H2 & H3 & H4 & H5 & H6). exists a, (x ++ (d, dr) :: y ++ [(dev, dir)])%list, x, dr, (y ++ [(dev, dir)])%list.
    split; [rewrite <- !app_assoc; reflexivity|]. split; [reflexivity|]. split; [|split; [|split; [exact H3|split; [exact H4|split; [exact H5|]]]]].
    + destruct H1 as [->|(e & r' & X & Y)]; [left; reflexivity|]. right. exists e, (r' ++ [(dev, dir)])%list. split; [|exact Y]. change (e :: r' ++ [(dev, dir)])%list with ((e :: r') ++ [(dev, dir)])%list. rewrite <- X, <- app_assoc. reflexivity.
    + intros e I. assert (I' : In e (tl (x ++ (d, dr) :: y)) \/ e = (dev, dir)).
      { destruct x as [|x0 x]; cbn in *; [apply in_app_or in I; destruct I as [I|[I|[]]]; auto|]. apply in_app_or in I. destruct I as [I|[I|I]]; [left; apply in_or_app; auto|left; apply in_or_app; right; left; exact I|].
        apply in_app_or in I. destruct I as [I|[I|[]]]; [left; apply in_or_app; right; right; exact I|auto]. }
      destruct I' as [I'| ->]; [apply H2, I'|]. cbn [snd]. intros (R & B). exact (proj2 (K B) R).
    + intros e k I B D. apply in_app_or in I. destruct I as [I|[<-|[]]]; [exact (H6 _ _ I B D)|]. apply depth_iff in D. subst k. exact (proj1 (K B)).
  - destruct H as (-> & H). split; [reflexivity|]. intros e I. apply in_app_or in I. destruct I as [I|[<-|[]]]; [apply H, I|]. cbn [snd]. intro B. destruct (K B) as (L & R). apply R, rooted_iff. split; [lia|exact (proj1 B)].
Qed.
Lemma seen_take : forall home ms found size dev dir, matches home dir size = true -> seen home ms found size -> seen home (ms ++ [(dev, dir)]) (Some dev) (length (masked dir)).
Proof.
  intros home ms found size dev dir M H. apply matches_iff in M. destruct M as (B & C). cbn [seen].
  assert (RC : rooted dir \/ ~ rooted dir) by (rewrite rooted_iff; destruct (Nat.eq_dec (length (masked dir)) 0) as [Z|Z]; [left; split; [exact Z|exact (proj1 B)]|right; tauto]).
  destruct RC as [R|R].
  - exists ms, [(dev, dir)], [], dir, []. split; [reflexivity|]. split; [reflexivity|]. split; [right; exists (dev, dir), []; auto|]. split; [intros e []|]. split; [exact B|]. split; [apply depth_iff; reflexivity|]. split; intros e k [].
  - destruct C as [C|C]; [|contradiction]. destruct found as [d|]; cbn [seen] in H.
    + destruct H as (a & r & x & dr & y & -> & E & H1 & H2 & H3 & H4 & H5 & H6). exists a, (r ++ [(dev, dir)])%list, r, dir, []. split; [rewrite <- app_assoc; reflexivity|]. split; [reflexivity|].
      assert (D : forall e k, In e r -> below home (snd e) -> depth (snd e) k -> (k <= size)%nat).
      { intros e k I Be De. subst r. apply in_app_or in I. destruct I as [I|[<-|I]]; [apply Nat.lt_le_incl; exact (H5 _ _ I Be De)| |exact (H6 _ _ I Be De)]. cbn [snd] in *. apply depth_iff in De, H4. lia. }
      split; [|split; [|split; [exact B|split; [apply depth_iff; reflexivity|split; [|intros e k []]]]]].
      * destruct H1 as [->|(e & r' & X & Y)]; [left; reflexivity|]. right. exists e, (r' ++ [(dev, dir)])%list. split; [rewrite X; reflexivity|exact Y].
      * intros e I. assert (I' : In e (tl r) \/ e = (dev, dir)) by (destruct r as [|r0 r]; [destruct x; discriminate E|cbn in *; apply in_app_or in I; destruct I as [I|[I|[]]]; auto]).
        destruct I' as [I'| ->]; [apply H2, I'|]. cbn [snd]. intros (X & _). exact (R X).
      * intros e k I Be De. pose proof (D e k I Be De). lia.
    + destruct H as (-> & H). exists [], (ms ++ [(dev, dir)])%list, ms, dir, []. split; [reflexivity|]. split; [reflexivity|]. split; [left; reflexivity|]. split.
      * intros e I. assert (I' : In e ms \/ e = (dev, dir)) by (destruct ms as [|m ms]; [destruct I|cbn in I; apply in_app_or in I; destruct I as [I|[I|[]]]; [left; right; exact I|auto]]).
        destruct I' as [I'| ->]; [intros (_ & X); exact (H _ I' X)|]. cbn [snd]. intros (X & _). exact (R X).
      * split; [exact B|]. split; [apply depth_iff; reflexivity|]. split; [intros e k I Be; destruct (H _ I Be)|intros e k []].
Qed.
Lemma find_home : forall E home ms ms0 found size, seen home ms0 found size -> match find_device E None home ms found size with
  | Some f => exists n, seen home (ms0 ++ ms) f n | None => exists e, In e ms /\ e_mem E (fst e) = false end.
Proof.
  intros E home ms. induction ms as [|(dev, dir) ms IH]; intros ms0 found size H; cbn [find_device].
  - exists size. rewrite app_nil_r. exact H.
  - cbv zeta. fold (matches home dir size). destruct (matches home dir size) eqn:M.
    + destruct (e_mem E dev) eqn:ME; cbn [negb]; [|exists (dev, dir); split; [left; reflexivity|exact ME]].
      pose proof (IH _ _ _ (seen_take _ _ _ _ dev dir M H)) as X. destruct (find_device E None home ms (Some dev) (length (masked dir))) as [f|]; [rewrite <- app_assoc in X; exact X|].
      destruct X as (e & I & X). exists e. split; [right; exact I|exact X].
    + pose proof (IH _ _ _ (seen_skip _ _ _ _ dev dir M H)) as X. destruct (find_device E None home ms found size) as [f|]; [rewrite <- app_assoc in X; exact X|].
      destruct X as (e & I & X). exists e. split; [right; exact I|exact X].
Qed.
Lemma find_named : forall E f home ms found size, match find_device E (Some f) home ms found size with
  | Some d => latest (named_fs f) ms found d | None => exists e, In e ms /\ e_mem E (fst e) = false end.
Proof.
  intros E f home ms found size.
  assert (G : forall ms found, find_device E (Some f) home ms found size = None \/ find_device E (Some f) home ms found size = Some (fold_left (fun d e => if streq f (snd e) || streq f (fst e) then Some (fst e) else d) ms found)).
  { clear. intro ms. induction ms as [|(dev, dir) ms IH]; intro found; cbn [find_device fold_left fst snd]; [auto|]. destruct (streq f dir || streq f dev); [destruct (e_mem E dev); cbn [negb]; [apply IH|auto]|apply IH]. }
  destruct (find_device E (Some f) home ms found size) as [d|] eqn:Q.
  - destruct (G ms found) as [X|X]; rewrite Q in X; [discriminate|]. injection X as ->.
    apply (latest_fold (named_fs f) (fun d e => if streq f (snd e) || streq f (fst e) then Some (fst e) else d) (fun d => d)). intros t e _. unfold named_fs. destruct (streq f (snd e) || streq f (fst e)) eqn:C.
    + left. split; [|reflexivity]. apply orb_true_iff in C. destruct C as [C|C]; apply streq_eq in C; auto.
    + right. split; [|reflexivity]. intros v (X & _). apply orb_false_iff in C. destruct C as (C1 & C2). destruct X as [<-|<-]; rewrite streq_refl in *; discriminate.
  - clear G. revert found Q. induction ms as [|(dev, dir) ms IH]; intros found Q; cbn [find_device] in Q; [discriminate|]. destruct (streq f dir || streq f dev).
    + destruct (e_mem E dev) eqn:ME; cbn [negb] in Q; [|exists (dev, dir); split; [left; reflexivity|exact ME]]. destruct (IH _ Q) as (e & I & X). exists e. split; [right; exact I|exact X].
    + destruct (IH _ Q) as (e & I & X). exists e. split; [right; exact I|exact X].
Qed.

(** ** The session *)
Definition range (E : env) (args : list cstr) (s e : Z) : Prop := exists d, default_start E d /\ latest (gives_uid (lit "startuid=")) args d s /\ latest (gives_uid (lit "enduid=")) args 0 e.
Definition outside (E : env) (args : list cstr) (uid : Z) : Prop := exists s e, range E args s e /\ (uid < s \/ (s <> 0 /\ s <= e /\ e < uid)).
Definition keeps (args : list cstr) (b : block) : Prop := ~ unlimited b /\ exists o, latest gives_overwrite args 0 o /\ o <> 1.
Definition user_of (E : env) (user : cstr) (uid : Z) (home : cstr) : Prop := e_user E = Some user /\ user <> [] /\ e_pw E user = Some (uid, home).
Lemma start_default : forall E, default_start E (match e_min E with Some v => str_to_uid v (e_uidmin E) | None => e_uidmin E end).
Proof.
  intro E. unfold default_start. destruct (e_min E) as [v|]; [|right; split; [discriminate|reflexivity]].
  destruct (uid_spec v (e_uidmin E)) as [(_ & -> & N)|U]; [right; split; [intros v' n X; injection X as <-; apply N|reflexivity]|left; eauto].
Qed.
Lemma unlimited_iff : forall b, (b_bsoft b =? 0) && (b_bhard b =? 0) && (b_isoft b =? 0) && (b_ihard b =? 0) = true <-> unlimited b.
Proof. intro b. unfold unlimited. rewrite !andb_true_iff, !Z.eqb_eq. tauto. Qed.
Definition complete (E : env) (args : list cstr) (rw : Z * list effect) : Prop :=
  (rw = (PAM_USER_UNKNOWN, []) /\ (e_user E = None \/ e_user E = Some [] \/ exists u, e_user E = Some u /\ e_pw E u = None)) \/
  exists user uid home, user_of E user uid home /\
  ((rw = (PAM_SUCCESS, []) /\ outside E args uid) \/
   (concerned E args uid /\
    ((rw = (PAM_PERM_DENIED, []) /\ (e_mounts E = None \/ exists ms, e_mounts E = Some ms /\ ((exists e, In e ms /\ e_mem E (fst e) = false) \/ no_device E args home ms))) \/
     exists ms dev, e_mounts E = Some ms /\ device E args home ms dev /\
     ((rw = (PAM_PERM_DENIED, []) /\ e_get E dev uid = None) \/
      exists b, e_get E dev uid = Some b /\
      ((rw = (PAM_IGNORE, []) /\ keeps args b) \/
       ((unlimited b \/ overwrites args) /\
        ((rw = (PAM_PERM_DENIED, []) /\ ~ paired args) \/ (paired args /\ rw = (PAM_IGNORE, []) /\ ~ some_limit args) \/
         (paired args /\ some_limit args /\ ((rw = (PAM_PERM_DENIED, []) /\ e_set E = false) \/ exists b' v, rw = (PAM_SUCCESS, [SetQuota dev uid b' v]) /\ e_set E = true /\ new_limits args b b' v))))))))).
Lemma session_complete : forall E args, complete E args (open_session E args).
Proof.
  intros E args. unfold complete, open_session. set (start := match e_min E with Some v => str_to_uid v (e_uidmin E) | None => e_uidmin E end). cbv zeta. set (q := fold_left parse_param args (mkParams start 0 None 0)).
  assert (SL : latest (gives_uid (lit "startuid=")) args start (q_start q)) by exact (start_latest args (mkParams start 0 None 0)).
  assert (EL : latest (gives_uid (lit "enduid=")) args 0 (q_end q)) by exact (end_latest args (mkParams start 0 None 0)).
  assert (OL : latest gives_overwrite args 0 (q_over q)) by exact (over_latest args (mkParams start 0 None 0)).
  assert (FL : latest gives_fs args None (q_fs q)) by exact (fs_latest args (mkParams start 0 None 0)).
  assert (DS : default_start E start) by exact (start_default E).
  destruct (e_user E) as [[|c user]|] eqn:EU; [left; auto| |left; auto]. destruct (e_pw E (c :: user)) as [(uid, home)|] eqn:EP; [|left; split; [reflexivity|right; right; eauto]].
  right. exists (c :: user), uid, home. split; [split; [exact EU|split; [discriminate|exact EP]]|].
  destruct ((uid <? q_start q) || ((q_start q <=? q_end q) && negb (q_start q =? 0) && (q_end q <? uid))) eqn:R.
  - left. split; [reflexivity|]. exists (q_start q), (q_end q). split; [exists start; auto|]. apply orb_true_iff in R. rewrite !andb_true_iff, negb_true_iff, Z.ltb_lt, Z.leb_le, Z.ltb_lt, Z.eqb_neq in R. tauto.
  - right. apply orb_false_iff in R. destruct R as (R1 & R2). apply Z.ltb_ge in R1. split.
    { exists start, (q_start q), (q_end q). split; [exact DS|]. split; [exact SL|]. split; [exact EL|]. split; [exact R1|]. apply andb_false_iff in R2. rewrite andb_false_iff, negb_false_iff, Z.leb_gt, Z.eqb_eq, Z.ltb_ge in R2. tauto. }
    destruct (e_mounts E) as [ms|] eqn:EM; [|left; auto].
    assert (FD : match find_device E (q_fs q) home ms None 0 with None => exists e, In e ms /\ e_mem E (fst e) = false | Some None => no_device E args home ms | Some (Some dev) => device E args home ms dev end).
    { unfold no_device, device. destruct (q_fs q) as [f|] eqn:Qf.
      - pose proof (find_named E f home ms None 0) as X. destruct (find_device E (Some f) home ms None 0) as [[dev|]|]; [exists (Some f); auto|exists (Some f); auto|exact X].
      - pose proof (find_home E home ms [] None 0 ltac:(split; [reflexivity|intros e []])) as X. cbn [app] in X. destruct (find_device E None home ms None 0) as [[dev|]|]; [| |exact X].
        + destruct X as (n & X). exists None. split; [exact FL|]. exists n. exact X.
        + destruct X as (n & _ & X). exists None. split; [exact FL|exact X]. }
    destruct (find_device E (q_fs q) home ms None 0) as [[dev|]|]; [|left; split; [reflexivity|right; exists ms; auto]|left; split; [reflexivity|right; exists ms; auto]].
    right. exists ms, dev. split; [reflexivity|]. split; [exact FD|]. destruct (e_get E dev uid) as [b|] eqn:EG; [|left; auto]. right. exists b. split; [reflexivity|].
    destruct (((b_bsoft b =? 0) && (b_bhard b =? 0) && (b_isoft b =? 0) && (b_ihard b =? 0)) || (q_over q =? 1)) eqn:U.
    + right. split. { apply orb_true_iff in U. destruct U as [U|U]; [left; apply unlimited_iff, U|right]. apply Z.eqb_eq in U. unfold overwrites. rewrite <- U. exact OL. }
      pose proof (limits_spec args b) as L. destruct (parse_dqblk args b) as [(b', v)|]; [|left; auto]. destruct L as (P & L). right.
      assert (V : v_b v || v_i v || v_bt v || v_it v = true <-> some_limit args).
      { destruct L as (_ & _ & _ & _ & _ & _ & V1 & V2 & V3 & V4). unfold some_limit. rewrite !orb_true_iff, V1, V2, V3, V4. destruct P as (P1 & P2). tauto. }
      destruct (v_b v || v_i v || v_bt v || v_it v) eqn:VV; cbn [negb].
      * right. split; [exact P|]. split; [apply V; reflexivity|]. destruct (e_set E) eqn:ES; cbn [negb]; [right; exists b', v; auto|left; auto].
      * left. split; [exact P|]. split; [reflexivity|]. intro S. apply V in S. discriminate.
    + left. split; [reflexivity|]. apply orb_false_iff in U. destruct U as (U1 & U2). split; [intro X; apply unlimited_iff in X; congruence|]. exists (q_over q). split; [exact OL|apply Z.eqb_neq, U2].
Qed.

(** C108: limits are set once at most, for a known user in the range, on the device of fs= or of the home directory, over no limits or with overwrite, and they are those of the options. *)
Theorem quota_set : forall E args dev uid b' v, In (SetQuota dev uid b' v) (snd (open_session E args)) ->
  open_session E args = (PAM_SUCCESS, [SetQuota dev uid b' v]) /\ concerned E args uid /\ paired args /\ some_limit args /\
  exists user home ms b, user_of E user uid home /\ e_mounts E = Some ms /\ device E args home ms dev /\ e_get E dev uid = Some b /\ (unlimited b \/ overwrites args) /\ new_limits args b b' v.
Proof.
  intros E args dev uid b' v I. pose proof (session_complete E args) as H. unfold complete in H. destruct (open_session E args) as [r w]. cbn [snd] in I.
  assert (N : forall x, (r, w) = (x, []) -> False) by (intros x X; injection X as -> ->; exact I).
  destruct H as [(X & _)|(user & uid' & home & HU & [(X & _)|(HC & [(X & _)|(ms & d & HM & HD & [(X & _)|(b & HG & [(X & _)|(HL & [(X & _)|[(_ & X & _)|(P & S & [(X & _)|(b2 & v2 & X & _ & HN)])]])])])])])]; try (destruct (N _ X)).
  injection X as -> ->. destruct I as [I|[]]. injection I as -> -> -> ->. split; [reflexivity|]. split; [exact HC|]. split; [exact P|]. split; [exact S|]. exists user, home, ms, b. auto 10.
Qed.
(** C108: the reasons why nothing is set, and the results. *)
Theorem quota_unset : forall E args, snd (open_session E args) = [] ->
  (fst (open_session E args) = PAM_USER_UNKNOWN /\ (e_user E = None \/ e_user E = Some [] \/ exists u, e_user E = Some u /\ e_pw E u = None)) \/
  exists user uid home, user_of E user uid home /\
  ((fst (open_session E args) = PAM_SUCCESS /\ outside E args uid) \/
   (fst (open_session E args) = PAM_PERM_DENIED /\ concerned E args uid /\
     (e_mounts E = None \/ exists ms, e_mounts E = Some ms /\ ((exists e, In e ms /\ e_mem E (fst e) = false) \/ no_device E args home ms \/
        exists dev, device E args home ms dev /\ (e_get E dev uid = None \/ exists b, e_get E dev uid = Some b /\ (unlimited b \/ overwrites args) /\ (~ paired args \/ (some_limit args /\ e_set E = false)))))) \/
   (fst (open_session E args) = PAM_IGNORE /\ concerned E args uid /\
     exists ms dev b, e_mounts E = Some ms /\ device E args home ms dev /\ e_get E dev uid = Some b /\ (keeps args b \/ ((unlimited b \/ overwrites args) /\ paired args /\ ~ some_limit args)))).
Proof.
  intros E args W. pose proof (session_complete E args) as H. unfold complete in H. destruct (open_session E args) as [r w]. cbn [fst snd] in *. subst w.
  destruct H as [(X & HN)|(user & uid & home & HU & H)]; [left; injection X as ->; auto|]. right. exists user, uid, home. split; [exact HU|].
  destruct H as [(X & HO)|(HC & H)]; [left; injection X as ->; auto|right].
  destruct H as [(X & HM)|(ms & d & HM & HD & H)]; [left; injection X as ->; split; [reflexivity|]; split; [exact HC|]; destruct HM as [HM|(ms & HM & [HX|HX])]; [auto|right; exists ms; auto|right; exists ms; auto]|].
  destruct H as [(X & HG)|(b & HG & H)]; [left; injection X as ->; split; [reflexivity|]; split; [exact HC|]; right; exists ms; split; [exact HM|]; right; right; exists d; auto|].
  destruct H as [(X & HK)|(HL & H)]; [right; injection X as ->; split; [reflexivity|]; split; [exact HC|]; exists ms, d, b; auto 10|].
  destruct H as [(X & HP)|[(HP & X & HS)|(HP & HS & [(X & HE)|(b2 & v2 & X & _)])]]; [| | |discriminate X]; injection X as ->.
  - left. split; [reflexivity|]. split; [exact HC|]. right. exists ms. split; [exact HM|]. right; right. exists d. split; [exact HD|]. right. exists b. auto.
  - right. split; [reflexivity|]. split; [exact HC|]. exists ms, d, b. auto 10.
  - left. split; [reflexivity|]. split; [exact HC|]. right. exists ms. split; [exact HM|]. right; right. exists d. split; [exact HD|]. right. exists b. auto.
Qed.

(** ** Examples *)
Definition none_set : block := mkBlock 0 0 0 0 0 0.
Definition ex (uid : Z) (home : string) (ms : list (cstr * cstr)) (old : block) : env := mkEnv (Some (lit "eva")) (fun u => if streq u (lit "eva") then Some (uid, lit home) else None) None 1000 (Some ms) (fun _ => true) (fun _ _ => Some old) true.
Definition disks : list (cstr * cstr) := [(lit "/dev/a", lit "/"); (lit "/dev/b", lit "/home"); (lit "/dev/c", lit "/srv")].
Example quota_set_example :
  open_session (ex 1001 "/home/eva" disks none_set) [lit "bsoftlimit=10"; lit "bhardlimit=20"] = (PAM_SUCCESS, [SetQuota (lit "/dev/b") 1001 (mkBlock 20 10 0 0 0 0) (mkValid true false false false)]) /\
  open_session (ex 1001 "/home/eva" disks (mkBlock 5 5 0 0 0 0)) [lit "bsoftlimit=10"; lit "bhardlimit=20"; lit "fs=/srv/"; lit "overwrite=1"] = (PAM_SUCCESS, [SetQuota (lit "/dev/c") 1001 (mkBlock 20 10 0 0 0 0) (mkValid true false false false)]) /\
  open_session (ex 1001 "/home/eva" disks none_set) [lit "isoftlimit=1"; lit "ihardlimit=2"; lit "btime=3"; lit "itime=4x"] = (PAM_SUCCESS, [SetQuota (lit "/dev/b") 1001 (mkBlock 0 0 2 1 3 0) (mkValid false true true true)]).
Proof. vm_compute. auto. Qed.
Example quota_unset_example :
  open_session (ex 999 "/home/eva" disks none_set) [lit "btime=1"] = (PAM_SUCCESS, []) /\ open_session (ex 2001 "/home/eva" disks none_set) [lit "btime=1"; lit "enduid=2000"] = (PAM_SUCCESS, []) /\
  open_session (ex 1001 "/home/eva" disks (mkBlock 5 5 0 0 0 0)) [lit "btime=1"] = (PAM_IGNORE, []) /\ open_session (ex 1001 "/home/eva" disks none_set) [] = (PAM_IGNORE, []) /\
  open_session (ex 1001 "/home/eva" disks none_set) [lit "bhardlimit=1"] = (PAM_PERM_DENIED, []) /\ open_session (ex 1001 "/home/eva" disks none_set) [lit "btime=1"; lit "fs=/mnt"] = (PAM_PERM_DENIED, []).
Proof. vm_compute. auto 10. Qed.

(** ** Findings *)
(** The limits of a user are not always set where the home directory is: a root directory listed after /home takes its place (pam_setquota.c:278). *)
Theorem quota_deepest_refuted : exists E args home ms, user_of E (lit "eva") 1001 home /\ e_mounts E = Some ms /\ In (lit "/dev/b", lit "/home") ms /\ below home (lit "/home") /\
  exists b v, open_session E args = (PAM_SUCCESS, [SetQuota (lit "/dev/a") 1001 b v]) /\ In (lit "/dev/a", lit "/") ms.
Proof.
  exists (ex 1001 "/home/eva" [(lit "/dev/b", lit "/home"); (lit "/dev/a", lit "/")] none_set), [lit "btime=1"], (lit "/home/eva"), [(lit "/dev/b", lit "/home"); (lit "/dev/a", lit "/")].
  split; [split; [reflexivity|split; [discriminate|reflexivity]]|]. split; [reflexivity|]. split; [left; reflexivity|]. split.
  - split; [discriminate|]. exists (lit "/home"), (lit "eva"). split; [|reflexivity]. exists []. split; [reflexivity|]. split; [intros c []|]. intros r X. apply (f_equal (@rev ascii)) in X. rewrite rev_app_distr in X. discriminate X.
  - eexists. eexists. split; [vm_compute; reflexivity|right; left; reflexivity].
Qed.
(** A home directory with a file system of its own has its limits set on another one (pam_setquota.c:280 wants a slash after the directory). *)
Theorem quota_own_mount_refuted : exists E args home ms, user_of E (lit "eva") 1001 home /\ e_mounts E = Some ms /\ In (lit "/dev/e", home) ms /\
  exists b v, open_session E args = (PAM_SUCCESS, [SetQuota (lit "/dev/b") 1001 b v]) /\ ~ In (lit "/dev/b", home) ms.
Proof.
  exists (ex 1001 "/home/eva" (disks ++ [(lit "/dev/e", lit "/home/eva")]) none_set), [lit "btime=1"], (lit "/home/eva"), (disks ++ [(lit "/dev/e", lit "/home/eva")])%list.
  split; [split; [reflexivity|split; [discriminate|reflexivity]]|]. split; [reflexivity|]. split; [apply in_or_app; right; left; reflexivity|].
  eexists. eexists. split; [vm_compute; reflexivity|]. intros [X|[X|[X|[X|[]]]]]; discriminate X.
Qed.
(** Of two file systems on one directory the first, which is hidden, is chosen. *)
Theorem quota_hidden_refuted : exists E args b v, e_mounts E = Some [(lit "/dev/old", lit "/home"); (lit "/dev/new", lit "/home")] /\
  open_session E args = (PAM_SUCCESS, [SetQuota (lit "/dev/old") 1001 b v]).
Proof. exists (ex 1001 "/home/eva" [(lit "/dev/old", lit "/home"); (lit "/dev/new", lit "/home")] none_set), [lit "btime=1"]. eexists. eexists. split; [reflexivity|vm_compute; reflexivity]. Qed.
(** enduid does not bound the users when startuid is 0 (pam_setquota.c:238). *)
Theorem quota_enduid_refuted : exists E args uid e dev b v, latest (gives_uid (lit "enduid=")) args 0 e /\ 0 < e < uid /\ open_session E args = (PAM_SUCCESS, [SetQuota dev uid b v]).
Proof.
  exists (ex 5000 "/home/eva" disks none_set), [lit "startuid=0"; lit "enduid=100"; lit "btime=1"], 5000, 100. eexists. eexists. eexists.
  split; [exact (end_latest [lit "startuid=0"; lit "enduid=100"; lit "btime=1"] (mkParams 1000 0 None 0))|]. split; [lia|vm_compute; reflexivity].
Qed.
(** A value of overwrite that is not 1 replaces limits all the same (pam_setquota.c:152: a long in an int). *)
Theorem quota_overwrite_refuted : exists E args uid dev old b v, In (lit "overwrite=4294967297") args /\ (forall s, In (lit "overwrite=" ++ s)%list args -> s <> lit "1") /\ e_get E dev uid = Some old /\ ~ unlimited old /\ open_session E args = (PAM_SUCCESS, [SetQuota dev uid b v]).
Proof.
  exists (ex 1001 "/home/eva" disks (mkBlock 5 5 0 0 0 0)), [lit "overwrite=4294967297"; lit "btime=1"], 1001, (lit "/dev/b"). eexists. eexists. eexists.
  split; [left; reflexivity|]. split; [intros s [X|[X|[]]] ->; discriminate X|]. split; [reflexivity|]. split; [intros (X & _); discriminate X|vm_compute; reflexivity].
Qed.
Print Assumptions quota_set.
Print Assumptions quota_unset.
Print Assumptions quota_deepest_refuted.
Print Assumptions quota_own_mount_refuted.
Print Assumptions quota_hidden_refuted.
Print Assumptions quota_enduid_refuted.
Print Assumptions quota_overwrite_refuted.
