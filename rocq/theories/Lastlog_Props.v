(** C109-C110: pam_lastlog locks inactive users out, and shows and records logins. *)
From Coq Require Import String Ascii List Arith ZArith Bool Lia.
From Verif Require Import Base Num_Model Str_Model Str_Facts Opt_Model Opt_Facts Flconf_Props Lastlog_Model.
Import ListNotations.
Local Open Scope Z_scope.

(** ** Spec: numbers *)
(** The number of days an option gives; text after the number is not looked at. *)
Definition gives_days (a : cstr) (d : Z) : Prop := exists s neg n rest, a = (lit "inactive=" ++ s)%list /\ signed 10 s neg n rest /\ d = (if neg : bool then - n else n) /\ 0 < d < 100000.
(** LASTLOG_UID_MAX: a whole number, with white space at the end. *)
Definition uid_text (s : cstr) (v : Z) : Prop := exists t tr neg n, s = (t ++ tr)%list /\ forallb isspace tr = true /\ (t = [] \/ isspace (last t NUL) = false) /\ signed 10 t neg n [] /\ v = ulong neg n /\ v < 2 ^ 32 - 1.
Definition largest (E : env) (m : Z) : Prop := (exists s, e_max E = Some s /\ uid_text s m) \/ ((forall s v, e_max E = Some s -> ~ uid_text s v) /\ m = 2 ^ 32 - 1).
Definition noted (E : env) (uid : Z) : Prop := exists m, largest E m /\ uid <= m.
Definition unnoted (E : env) (uid : Z) : Prop := exists m, largest E m /\ m < uid.
(** The time that a signed 32-bit integer keeps. *)
Definition kept (t k : Z) : Prop := - 2 ^ 31 <= k < 2 ^ 31 /\ exists n, t = k + n * 2 ^ 32.

Lemma days_latest : forall args d, latest gives_days args d (fold_left parse_inactive args d).
Proof.
  intros args d. apply (latest_fold gives_days parse_inactive (fun d => d)). intros t a _. unfold gives_days, parse_inactive.
  destruct (skip_prefix (lit "inactive=") a) as [s|] eqn:A; [apply skip_prefix_some in A; subst a|apply skip_prefix_none in A; right; split; [intros y (s & neg & n & rest & -> & _); apply A; eauto|reflexivity]].
  destruct (strtol s) as [l [rest|]] eqn:Q.
  - apply strtol_some in Q. destruct Q as (neg & n & G & ->).
    destruct ((0 <? long_of neg n) && (long_of neg n <? 100000)) eqn:R.
    + left. exists s, neg, n, rest. apply andb_true_iff in R. rewrite !Z.ltb_lt in R. split; [reflexivity|]. split; [exact G|]. unfold long_of, LONG_MIN, LONG_MAX in *. destruct neg; lia.
    + right. split; [|reflexivity]. intros y (s' & neg' & n' & rest' & X & G' & -> & B). apply app_inv_head in X. subst s'. destruct (signed_unique 10 _ _ _ _ _ _ _ ltac:(lia) G' G) as (-> & -> & ->).
      apply andb_false_iff in R. rewrite !Z.ltb_ge in R. unfold long_of, LONG_MIN, LONG_MAX in R. destruct neg; lia.
  - apply strtol_none in Q. destruct Q as (_ & Q). right. split; [|reflexivity]. intros y (s' & neg' & n' & rest' & X & G' & _). apply app_inv_head in X. subst s'. exact (Q _ _ _ G').
Qed.
Lemma uid_max_spec : forall E, largest E (uid_max E).
Proof.
  intro E. unfold largest, uid_max. destruct (e_max E) as [s|]; [|right; split; [discriminate|reflexivity]].
  destruct (rtrim_spec s) as (tr & X & A & B). assert (U : forall v, uid_text s v -> exists neg n, signed 10 (rtrim s) neg n [] /\ v = ulong neg n /\ v < 2 ^ 32 - 1).
  { intros v (t & tr' & neg & n & Y & A' & B' & G). exists neg, n. rewrite Y, (rtrim_app t tr' A' B'). exact G. }
  destruct (strtoul 10 (rtrim s)) as [v [rest|]] eqn:Q.
  - apply strtoul_some in Q; [|lia]. destruct Q as (neg & n & G & ->). destruct rest as [|c rest].
    + unfold MAX_UID_VALUE. destruct (Z.leb_spec 4294967295 (ulong neg n)) as [L|L].
      * right. split; [|reflexivity]. intros s' v X' T. injection X' as <-. apply U in T. destruct T as (neg' & n' & G' & -> & R). destruct (signed_unique 10 _ _ _ _ _ _ _ ltac:(lia) G' G) as (-> & -> & _). lia.
      * left. exists s. split; [reflexivity|]. exists (rtrim s), tr, neg, n. auto 10.
    + right. split; [|reflexivity]. intros s' v X' T. injection X' as <-. apply U in T. destruct T as (neg' & n' & G' & _). destruct (signed_unique 10 _ _ _ _ _ _ _ ltac:(lia) G' G) as (_ & _ & Z). discriminate.
  - apply strtoul_none in Q; [|lia]. destruct Q as (_ & Q). right. split; [|reflexivity]. intros s' v' X' T. injection X' as <-. apply U in T. destruct T as (neg & n & G & _). exact (Q _ _ _ G).
Qed.
Lemma int32_spec : forall t k, kept t k <-> k = int32 t.
Proof.
  intros x n. unfold kept, int32. pose proof (Z.mod_pos_bound (x + 2 ^ 31) (2 ^ 32) ltac:(lia)) as B. split.
  - intros (R & k & ->). replace (n + k * 2 ^ 32 + 2 ^ 31) with (n + 2 ^ 31 + k * 2 ^ 32) by lia. rewrite Z.mod_add by lia. rewrite Z.mod_small by lia. lia.
  - intros ->. split; [lia|]. exists ((x + 2 ^ 31) / 2 ^ 32). pose proof (Z.div_mod (x + 2 ^ 31) (2 ^ 32) ltac:(lia)). lia.
Qed.
Lemma lock_in : forall a n i e, In e (snd (lock_loop a n i)) -> e = Sleep.
Proof.
  intros a n. induction n as [|n IH]; intros i e I; cbn [lock_loop] in I; [destruct I|]. destruct (a i); [destruct I|]. destruct n as [|n]; [destruct I|].
  specialize (IH (S i)). destruct (lock_loop a (S n) (S i)) as [r w]. cbn [snd] in *. destruct I as [<-|I]; [reflexivity|apply IH, I].
Qed.
Lemma lock_result : forall a n i, fst (lock_loop a n i) = true <-> exists j, (i <= j < i + n)%nat /\ a j = true.
Proof.
  intros a n. induction n as [|n IH]; intro i; cbn [lock_loop]; [split; [discriminate|intros (j & L & _); lia]|]. destruct (a i) eqn:A.
  - split; [intros _; exists i; split; [lia|exact A]|reflexivity].
  - assert (G : (exists j, (i <= j < i + S n)%nat /\ a j = true) <-> exists j, (S i <= j < S i + n)%nat /\ a j = true).
    { split; intros (j & L & J); exists j; (split; [|exact J]); [|lia]. assert (j <> i) by congruence. lia. }
    rewrite G, <- IH. destruct n as [|n]; [reflexivity|]. destruct (lock_loop a (S n) (S i)). reflexivity.
Qed.

(** ** Inactive users *)
(** Effects that change nothing: locks for reading and waiting. *)
Definition reading (uid : Z) (e : effect) : Prop := e = Sleep \/ e = Lock false uid \/ e = Unlock uid.
Definition readable (E : env) : Prop := e_open E false = Opened /\ e_seek E = true.
(** The user has logged in, but not for more than this number of days. *)
Definition inactive (E : env) (uid d : Z) : Prop := exists r, e_read E uid = Some r /\ r_time r <> 0 /\ (d + 1) * 86400 <= e_now E - r_time r.
Lemma read_quiet : forall E c uid, c_quiet c = true -> exists w, last_login_read E c uid = (PAM_SUCCESS, match e_read E uid with Some r => r_time r | None => 0 end, w) /\ forall e, In e w -> reading uid e.
Proof.
  intros E c uid Q. unfold last_login_read. rewrite Q. pose proof (lock_in (e_rlock E) 3 0) as L. destruct (lock_loop (e_rlock E) 3 0) as [l w]. cbn [snd] in L. eexists. split; [destruct (e_read E uid); reflexivity|].
  intros e I. rewrite app_nil_r in I. apply in_app_or in I. unfold reading. destruct I as [I|I]; [left; apply (L _ I)|]. apply in_app_or in I. destruct I as [I|[<-|[]]]; [|auto]. destruct l; [destruct I as [<-|[]]; auto|destruct I].
Qed.
Lemma days_iff : forall x d, 0 < d -> (d < Z.quot x 86400 <-> (d + 1) * 86400 <= x).
Proof.
  intros x d D. split; intro H.
  - assert (0 <= x) by (destruct (Z.le_gt_cases 0 x) as [L|L]; [exact L|]; pose proof (Z.quot_le_mono x 0 86400 ltac:(lia) ltac:(lia)) as X; rewrite Z.quot_0_l in X; lia).
    rewrite Z.quot_div_nonneg in H by lia. pose proof (Z.mul_div_le x 86400 ltac:(lia)). lia.
  - rewrite Z.quot_div_nonneg by lia. assert (d + 1 <= x / 86400) by (apply Z.div_le_lower_bound; lia). lia.
Qed.
Lemma latest_positive : forall args d, latest gives_days args 90 d -> 0 < d.
Proof. intros args d [(a & s & b & _ & (x & neg & n & rest & _ & _ & _ & X) & _)|(_ & ->)]; lia. Qed.

(** C109: users that are not noted, the superuser and users who never logged in pass; others are locked out after the days of the last option that is in order, 90 without one. Nothing is
    changed and nothing said. *)
Theorem lastlog_inactive : forall E args, exists d, latest gives_days args 90 d /\
  ((fst (auth E args) = PAM_USER_UNKNOWN /\ (e_user E = None \/ exists u, e_user E = Some u /\ e_pw E u = None) /\ snd (auth E args) = []) \/
   exists user uid, e_user E = Some user /\ e_pw E user = Some uid /\ (forall e, In e (snd (auth E args)) -> reading uid e) /\
   ((fst (auth E args) = PAM_SUCCESS /\ (uid = 0 \/ unnoted E uid)) \/
    (uid <> 0 /\ noted E uid /\
     ((fst (auth E args) = PAM_IGNORE /\ ~ readable E) \/
      (readable E /\ ((fst (auth E args) = PAM_AUTH_ERR /\ inactive E uid d) \/ (fst (auth E args) = PAM_SUCCESS /\ ~ inactive E uid d))))))).
Proof.
  intros E args. exists (fold_left parse_inactive args 90). pose proof (days_latest args 90) as DL. split; [exact DL|]. apply latest_positive in DL. unfold auth. set (d := fold_left parse_inactive args 90) in *.
  destruct (e_user E) as [user|]; [|left; auto]. destruct (e_pw E user) as [uid|] eqn:EP; [|left; split; [reflexivity|split; [right; eauto|reflexivity]]].
  right. exists user, uid. split; [reflexivity|]. split; [exact EP|]. pose proof (uid_max_spec E) as M.
  destruct ((uid =? 0) || (uid_max E <? uid)) eqn:Z0.
  { split; [intros e []|]. left. split; [reflexivity|]. apply orb_true_iff in Z0. rewrite Z.eqb_eq, Z.ltb_lt in Z0. destruct Z0 as [Z0|Z0]; [auto|right; exists (uid_max E); auto]. }
  apply orb_false_iff in Z0. rewrite Z.eqb_neq, Z.ltb_ge in Z0. destruct Z0 as (Z0 & Z1).
  assert (O : exists o, last_login_open E false = (o, []) /\ (o = true <-> readable E)).
  { unfold last_login_open, readable. destruct (e_open E false); [exists (e_seek E)|exists false|exists false]; (split; [reflexivity|]); intuition congruence. }
  destruct O as (o & -> & O). destruct o; cbn [negb].
  - destruct (read_quiet E (mkCtrl false false false false true false false false false) uid eq_refl) as (w & -> & W). change (negb (PAM_SUCCESS =? PAM_SUCCESS)) with false. cbn [app].
    set (t := match e_read E uid with Some r => r_time r | None => 0 end).
    assert (IN : inactive E uid d <-> t <> 0 /\ (d + 1) * 86400 <= e_now E - t).
    { unfold inactive, t. destruct (e_read E uid) as [r|]; [split; [intros (r' & X & Y); injection X as <-; exact Y|eauto]|split; [intros (r' & X & _); discriminate|intros (X & _); congruence]]. }
    destruct (Z.eqb_spec t 0) as [T|T]; [split; [exact W|]; right; split; [exact Z0|]; split; [exists (uid_max E); auto|]; right; split; [apply O; reflexivity|]; right; split; [reflexivity|]; rewrite IN; tauto|].
    destruct (Z.ltb_spec d (Z.quot (e_now E - t) 86400)) as [L|L]; (split; [exact W|]; right; split; [exact Z0|]; split; [exists (uid_max E); auto|]; right; split; [apply O; reflexivity|]).
    + left. split; [reflexivity|]. apply IN. split; [exact T|]. apply days_iff; assumption.
    + right. split; [reflexivity|]. rewrite IN. intros (_ & X). apply days_iff in X; lia.
  - split; [intros e []|]. right. split; [exact Z0|]. split; [exists (uid_max E); auto|]. left. split; [reflexivity|]. intro R. apply O in R. discriminate.
Qed.

(** ** Spec: sessions *)
Definition terminal (E : env) (t : cstr) : Prop := e_tty E = Some (lit "/dev/" ++ t)%list \/ (e_tty E = Some t /\ forall s, t <> (lit "/dev/" ++ s)%list) \/ (e_tty E = None /\ t = []).
Definition remote (E : env) (h : cstr) : Prop := e_rhost E = Some h \/ (e_rhost E = None /\ h = []).
Definition has (o : string) (args : list cstr) : Prop := In (lit o) args.
(** What is told of a login. *)
Definition shown (E : env) (args : list cstr) (r : record) (d : option Z) (h l : option cstr) : Prop :=
  (d = Some (r_time r) /\ ~ has "nodate" args /\ e_local E (r_time r) = true \/ d = None /\ (has "nodate" args \/ e_local E (r_time r) = false)) /\
  (h = Some (r_host r) /\ ~ has "nohost" args /\ r_host r <> [] \/ h = None /\ (has "nohost" args \/ r_host r = [])) /\
  (l = Some (r_line r) /\ ~ has "noterm" args /\ r_line r <> [] \/ l = None /\ (has "noterm" args \/ r_line r = [])).
Definition loud (silent : bool) (args : list cstr) : Prop := silent = false /\ ~ has "silent" args.
Definition user_id (E : env) (user : cstr) (uid : Z) : Prop := e_user E = Some user /\ user <> [] /\ e_pw E user = Some uid.
Inductive number {A : Type} (P : A -> Prop) : list A -> nat -> Prop :=
| number_nil : number P [] 0
| number_yes : forall x l n, P x -> number P l n -> number P (x :: l) (S n)
| number_no : forall x l n, ~ P x -> number P l n -> number P (x :: l) n.
(** A failure of this user, by the first 32 characters of the name, at or after a time; the time of a failure is taken as a number that is not negative. *)
Definition failure (user : cstr) (t : Z) (f : cstr * record) : Prop := fst f = firstn 32 user /\ 0 <= t /\ exists u k, 0 <= u < 2 ^ 32 /\ r_time (snd f) = u + k * 2 ^ 32 /\ t <= u.
(** The time of the last login, as the module knows it. *)
Definition last_time (E : env) (uid t : Z) : Prop := (unnoted E uid /\ t = 0) \/ (noted E uid /\ ((exists r, e_read E uid = Some r /\ t = r_time r) \/ (e_read E uid = None /\ t = 0))).
Definition times32 (E : env) : Prop := forall uid r, e_read E uid = Some r -> - 2 ^ 31 <= r_time r < 2 ^ 31.

Ltac opt_cases a := repeat match goal with |- context [streq a ?k] => let Q := fresh "Q" in destruct (streq a k) eqn:Q; [apply streq_eq in Q; subst a|apply streq_neq in Q] end; cbn.
Ltac opt_step := let t := fresh "t" in let a := fresh "a" in let H := fresh "H" in intros t a; destruct t; unfold parse_session; opt_cases a; split; intro H;
  try (right; exact H); try reflexivity; try (left; reflexivity); try (left; left; reflexivity); try (left; right; reflexivity);
  try (destruct H as [H|H]; [|exact H]); try (destruct H as [H|H]); (discriminate H || (exfalso; match goal with Q : _ <> _ |- _ => solve [apply Q; exact H] end)).
Lemma in_one : forall (k : cstr) args, (exists s, In s args /\ s = k) <-> In k args.
Proof. intros k args. split; [intros (s & I & ->); exact I|eauto]. Qed.
Definition start : ctrl := mkCtrl true true true false false true false true false.
Lemma on_flag : forall (val : ctrl -> bool) k args, (forall t a, val (parse_session t a) = true <-> a = k \/ val t = true) -> val start = false -> (val (fold_left parse_session args start) = true <-> In k args).
Proof. intros val k args H Z. rewrite (flag_fold (fun a => a = k) parse_session val H args), Z, in_one. split; [intros [X|X]; [exact X|discriminate]|auto]. Qed.
Lemma off_flag : forall (val : ctrl -> bool) k args, (forall t a, negb (val (parse_session t a)) = true <-> a = k \/ negb (val t) = true) -> val start = true -> (val (fold_left parse_session args start) = true <-> ~ In k args).
Proof.
  intros val k args H Z. pose proof (flag_fold (fun a => a = k) parse_session (fun c => negb (val c)) H args start) as F. cbv beta in F. rewrite in_one, Z in F. cbn [negb] in F.
  destruct (val (fold_left parse_session args start)); cbn [negb] in F; intuition congruence.
Qed.
Lemma off_flag2 : forall (val : ctrl -> bool) k1 k2 args, (forall t a, negb (val (parse_session t a)) = true <-> (a = k1 \/ a = k2) \/ negb (val t) = true) -> val start = true ->
  (val (fold_left parse_session args start) = true <-> ~ In k1 args /\ ~ In k2 args).
Proof.
  intros val k1 k2 args H Z. pose proof (flag_fold (fun a => a = k1 \/ a = k2) parse_session (fun c => negb (val c)) H args start) as F. cbv beta in F. rewrite Z in F. cbn [negb] in F.
  assert (X : (exists s, In s args /\ (s = k1 \/ s = k2)) <-> In k1 args \/ In k2 args) by (split; [intros (s & I & [->| ->]); auto|intros [I|I]; eauto]). rewrite X in F.
  destruct (val (fold_left parse_session args start)); cbn [negb] in F; intuition congruence.
Qed.
Lemma ctrl_spec : forall silent args, let c := session_parse silent args in
  (c_date c = true <-> ~ has "nodate" args) /\ (c_host c = true <-> ~ has "nohost" args) /\ (c_line c = true <-> ~ has "noterm" args) /\ (c_never c = true <-> has "never" args) /\
  (c_quiet c = true <-> ~ loud silent args) /\ (c_wtmp c = true <-> ~ has "nowtmp" args /\ ~ has "noupdate" args) /\ (c_btmp c = true <-> has "showfailed" args /\ silent = false) /\
  (c_update c = true <-> ~ has "noupdate" args) /\ (c_unlimited c = true <-> has "unlimited" args).
Proof.
  intros silent args. cbv zeta. unfold session_parse, loud, has. change (mkCtrl true true true false false true false true false) with start.
  pose proof (off_flag c_date (lit "nodate") args ltac:(opt_step) eq_refl) as F1. pose proof (off_flag c_host (lit "nohost") args ltac:(opt_step) eq_refl) as F2.
  pose proof (off_flag c_line (lit "noterm") args ltac:(opt_step) eq_refl) as F3. pose proof (on_flag c_never (lit "never") args ltac:(opt_step) eq_refl) as F4.
  pose proof (on_flag c_quiet (lit "silent") args ltac:(opt_step) eq_refl) as F5. pose proof (off_flag2 c_wtmp (lit "nowtmp") (lit "noupdate") args ltac:(opt_step) eq_refl) as F6.
  pose proof (on_flag c_btmp (lit "showfailed") args ltac:(opt_step) eq_refl) as F7. pose proof (off_flag c_update (lit "noupdate") args ltac:(opt_step) eq_refl) as F8.
  pose proof (on_flag c_unlimited (lit "unlimited") args ltac:(opt_step) eq_refl) as F9.
  destruct (fold_left parse_session args start) as [da ho li ne qu wt bt up un]. cbn [c_date c_host c_line c_never c_quiet c_wtmp c_btmp c_update c_unlimited] in *.
  destruct silent; cbn [c_date c_host c_line c_never c_quiet c_wtmp c_btmp c_update c_unlimited]; rewrite ?F1, ?F2, ?F3, ?F4, ?F6, ?F8, ?F9.
  - split; [tauto|]. split; [tauto|]. split; [tauto|]. split; [tauto|]. split; [intuition discriminate|]. split; [tauto|]. split; [intuition discriminate|]. tauto.
  - split; [tauto|]. split; [tauto|]. split; [tauto|]. split; [tauto|]. split; [destruct qu; intuition discriminate|]. split; [tauto|]. split; [rewrite F7; tauto|]. tauto.
Qed.
Lemma tty_spec : forall E, terminal E (get_tty E).
Proof.
  intro E. unfold terminal, get_tty. destruct (e_tty E) as [t|]; [|right; right; auto]. destruct (skip_prefix (lit "/dev/") t) as [s|] eqn:P.
  - apply skip_prefix_some in P. subst t. left. reflexivity.
  - apply skip_prefix_none in P. right; left. split; [reflexivity|]. intros s ->. apply P. eauto.
Qed.
Lemma host_spec : forall E, remote E (match e_rhost E with Some h => h | None => [] end).
Proof. intro E. unfold remote. destruct (e_rhost E); auto. Qed.
Lemma parts_spec : forall E silent args r, match parts E (session_parse silent args) r with
  | Some (d, h, l) => shown E args r d h l
  | None => (e_mem E (r_host r) = false \/ e_mem E (r_line r) = false) end.
Proof.
  intros E silent args r. destruct (ctrl_spec silent args) as (F1 & F2 & F3 & _). unfold parts, shown.
  set (c := session_parse silent args) in *. assert (N1 : c_date c = false -> has "nodate" args).
  { intro X. destruct (in_dec (list_eq_dec ascii_dec) (lit "nodate") args) as [I|I]; [exact I|]. apply F1 in I. congruence. }
  assert (N2 : c_host c = false -> has "nohost" args). { intro X. destruct (in_dec (list_eq_dec ascii_dec) (lit "nohost") args) as [I|I]; [exact I|]. apply F2 in I. congruence. }
  assert (N3 : c_line c = false -> has "noterm" args). { intro X. destruct (in_dec (list_eq_dec ascii_dec) (lit "noterm") args) as [I|I]; [exact I|]. apply F3 in I. congruence. }
  destruct r as [t li ho]. cbn [r_time r_line r_host].
  destruct (c_host c && match ho with [] => false | _ => true end) eqn:WH; [destruct (e_mem E ho) eqn:MH; cbn [negb andb]; [|left; reflexivity]|cbn [andb]].
  all: destruct (c_line c && match li with [] => false | _ => true end) eqn:WL; [destruct (e_mem E li) eqn:ML; cbn [negb andb]; [|right; reflexivity]|cbn [andb]].
  all: split; [destruct (c_date c) eqn:D; cbn [andb]; [destruct (e_local E t); [left|right]; (split; [reflexivity|]); [split; [apply F1; reflexivity|reflexivity]|right; reflexivity]|right; split; [reflexivity|left; auto]]|].
  all: split; [destruct ho as [|c0 ho]; [rewrite ?andb_false_r in WH; try discriminate WH; right; auto|]; rewrite andb_true_r in WH|destruct li as [|c1 li]; [rewrite ?andb_false_r in WL; try discriminate WL; right; auto|]; rewrite andb_true_r in WL].
  all: first [left; split; [reflexivity|]; split; [first [apply F2; exact WH|apply F3; exact WL]|discriminate]|right; split; [reflexivity|]; left; auto].
Qed.
Lemma nothing_iff : forall d h l, nothing (d, h, l) = true <-> d = None /\ h = None /\ l = None.
Proof. intros [d|] [h|] [l|]; cbn; intuition discriminate. Qed.

(** ** Stages *)
Lemma read_cases : forall E silent args uid rv t w, last_login_read E (session_parse silent args) uid = (rv, t, w) ->
  (exists r, e_read E uid = Some r /\ t = r_time r \/ e_read E uid = None /\ t = 0) /\ exists w0 m, w = (w0 ++ m)%list /\ (forall e, In e w0 -> reading uid e) /\
  ((m = [] /\ rv = PAM_SUCCESS /\ (~ loud silent args \/ (exists r, e_read E uid = Some r /\ r_time r <> 0 /\ shown E args r None None None) \/ (t = 0 /\ ~ has "never" args))) \/
   (m = [] /\ rv = PAM_BUF_ERR /\ exists r, e_read E uid = Some r /\ (e_mem E (r_host r) = false \/ e_mem E (r_line r) = false)) \/
   (loud silent args /\ exists r d h l, e_read E uid = Some r /\ r_time r <> 0 /\ shown E args r d h l /\ ~ (d = None /\ h = None /\ l = None) /\ m = [Say (LastLogin d h l)] /\ rv = e_info E (LastLogin d h l)) \/
   (loud silent args /\ t = 0 /\ has "never" args /\ m = [Say Welcome] /\ rv = e_info E Welcome)).
Proof.
  intros E silent args uid rv t w H. destruct (ctrl_spec silent args) as (_ & _ & _ & FN & FQ & _). unfold last_login_read in H. pose proof (lock_in (e_rlock E) 3 0) as L. destruct (lock_loop (e_rlock E) 3 0) as [lk w1]. cbn [snd] in L.
  cbv zeta in H. set (w0 := (w1 ++ (if lk then [Lock false uid] else []) ++ [Unlock uid])%list) in H.
  assert (W0 : forall e, In e w0 -> reading uid e).
  { intros e I. apply in_app_or in I. unfold reading. destruct I as [I|I]; [left; apply (L _ I)|]. apply in_app_or in I. destruct I as [I|[<-|[]]]; [|auto]. destruct lk; [destruct I as [<-|[]]; auto|destruct I]. }
  set (r := match e_read E uid with Some r => r | None => mkRec 0 [] [] end) in H.
  assert (T : t = r_time r). { match type of H with (let '(x, y) := ?g in _) = _ => destruct g as [rv0 m0] end. injection H as _ <- _. reflexivity. }
  assert (RR : r_time r <> 0 -> e_read E uid = Some r) by (unfold r; destruct (e_read E uid); [reflexivity|cbn; congruence]).
  split. { exists r. unfold r in T |- *. destruct (e_read E uid) as [r0|]; [left; auto|right; auto]. }
  assert (LD : c_quiet (session_parse silent args) = false -> loud silent args).
  { intro Q. unfold loud in *. destruct silent; [exfalso; assert (c_quiet (session_parse true args) = true) by (apply FQ; intros (X & _); discriminate); congruence|]. split; [reflexivity|]. intro I.
    assert (c_quiet (session_parse false args) = true) by (apply FQ; intros (_ & X); exact (X I)). congruence. }
  destruct (c_quiet (session_parse silent args)) eqn:Q.
  { injection H as <- _ <-. exists w0, []. split; [reflexivity|]. split; [exact W0|]. left. split; [reflexivity|]. split; [reflexivity|]. left. apply FQ. reflexivity. }
  specialize (LD eq_refl). destruct (Z.eqb_spec (r_time r) 0) as [Z|Z]; cbn [negb] in H.
  - destruct (c_never (session_parse silent args)) eqn:NV.
    + injection H as <- _ <-. exists w0, [Say Welcome]. split; [reflexivity|]. split; [exact W0|]. right; right; right. split; [exact LD|]. split; [congruence|]. split; [apply FN; reflexivity|auto].
    + injection H as <- _ <-. exists w0, []. split; [reflexivity|]. split; [exact W0|]. left. split; [reflexivity|]. split; [reflexivity|]. right; right. split; [congruence|]. intro X. apply FN in X. discriminate.
  - specialize (RR Z). pose proof (parts_spec E silent args r) as P. destruct (parts E (session_parse silent args) r) as [((d, h), l)|].
    + destruct (nothing (d, h, l)) eqn:NO.
      * apply nothing_iff in NO. destruct NO as (-> & -> & ->). injection H as <- _ <-. exists w0, []. split; [reflexivity|]. split; [exact W0|]. left. split; [reflexivity|]. split; [reflexivity|]. right; left. exists r. auto.
      * injection H as <- _ <-. exists w0, [Say (LastLogin d h l)]. split; [reflexivity|]. split; [exact W0|]. right; right; left. split; [exact LD|]. exists r, d, h, l. split; [exact RR|]. split; [exact Z|]. split; [exact P|].
        split; [|auto]. intro X. apply nothing_iff in X. congruence.
    + injection H as <- _ <-. exists w0, []. split; [reflexivity|]. split; [exact W0|]. right; left. split; [reflexivity|]. split; [reflexivity|]. exists r. auto.
Qed.
(** The effects of recording a login, if the lock is there. *)
Definition recorded (E : env) (args : list cstr) (uid : Z) (user : cstr) (rv : Z) (w : list effect) : Prop := exists ws r tty h (lifted : bool),
  (forall e, In e ws -> e = Sleep) /\ kept (e_now E) (r_time r) /\ terminal E tty /\ remote E h /\ r_line r = firstn 31 tty /\ r_host r = firstn 255 h /\ (exists j, (j < 3)%nat /\ e_wlock E j = true) /\
  (lifted = true <-> has "unlimited" args /\ e_limit E = Some false /\ e_lift E = true) /\
  (rv = PAM_SUCCESS /\ e_write E = true /\ (lifted = true -> e_restore E = true) \/ rv = PAM_SERVICE_ERR /\ (e_write E = false \/ (lifted = true /\ e_restore E = false))) /\
  exists wt, ((~ has "nowtmp" args /\ ~ has "noupdate" args) /\ wt = [Wtmp (r_line r) user h] \/ (~ (~ has "nowtmp" args /\ ~ has "noupdate" args)) /\ wt = []) /\
  w = (ws ++ Lock true uid :: (if lifted then [SetLimit true] else []) ++ (if e_write E then [Write uid r] else []) ++ (if lifted && e_restore E then [SetLimit false] else []) ++ Unlock uid :: wt)%list.
Lemma write_cases : forall E silent args uid user rv w, last_login_write E (session_parse silent args) uid user = (rv, w) ->
  (rv = PAM_SERVICE_ERR /\ (forall e, In e w -> e = Sleep) /\ (e_seek2 E = false \/ forall j, (j < 3)%nat -> e_wlock E j = false)) \/ recorded E args uid user rv w.
Proof.
  intros E silent args uid user rv w H. destruct (ctrl_spec silent args) as (_ & _ & _ & _ & _ & FW & _ & _ & FU). unfold last_login_write in H. destruct (e_seek2 E); cbn [negb] in H; [|left; injection H as <- <-; split; [reflexivity|split; [intros e []|auto]]].
  cbv zeta in H. pose proof (lock_in (e_wlock E) 3 0) as L. pose proof (lock_result (e_wlock E) 3 0) as R. destruct (lock_loop (e_wlock E) 3 0) as [lk ws]. cbn [fst snd] in L, R. destruct lk; cbn [negb] in H.
  - right. injection H as <- <-. set (lifted := c_unlimited (session_parse silent args) && match e_limit E with Some false => e_lift E | _ => false end).
    exists ws, (mkRec (int32 (e_now E)) (firstn 31 (get_tty E)) (firstn 255 match e_rhost E with Some h => h | None => [] end)), (get_tty E), (match e_rhost E with Some h => h | None => [] end), lifted. cbn [r_time r_line r_host].
    split; [apply L|]. split; [apply int32_spec; reflexivity|]. split; [apply tty_spec|]. split; [apply host_spec|]. split; [reflexivity|]. split; [reflexivity|].
    split; [destruct (proj1 R eq_refl) as (j & J & A); exists j; split; [lia|exact A]|].
    split. { unfold lifted. rewrite andb_true_iff, FU. destruct (e_limit E) as [[|]|]; intuition congruence. }
    split. { destruct lifted, (e_restore E), (e_write E); cbn [andb negb]; intuition congruence. }
    exists (if c_wtmp (session_parse silent args) then [Wtmp (firstn 31 (get_tty E)) user match e_rhost E with Some h => h | None => [] end] else []). split.
    { destruct (c_wtmp (session_parse silent args)); [left; split; [apply FW; reflexivity|reflexivity]|right; split; [intro X; apply FW in X; discriminate|reflexivity]]. }
    cbn [app]. reflexivity.
  - left. injection H as <- <-. split; [reflexivity|]. split; [apply L|]. right. intros j J. destruct (e_wlock E j) eqn:A; [|reflexivity]. assert (X : false = true) by (apply R; exists j; split; [lia|exact A]). discriminate.
Qed.
Lemma number_snoc : forall {A} (P : A -> Prop) l n x, number P l n -> (P x -> number P (l ++ [x]) (S n)) /\ (~ P x -> number P (l ++ [x]) n).
Proof.
  intros A P l n x H. induction H as [|y l n Y H (IH1 & IH2)|y l n Y H (IH1 & IH2)]; cbn [app]; split; intro X.
  - apply number_yes; [exact X|apply number_nil].
  - apply number_no; [exact X|apply number_nil].
  - apply number_yes; auto.
  - apply number_yes; auto.
  - apply number_no; auto.
  - apply number_no; auto.
Qed.
Definition last_failure (user : cstr) (t : Z) (fs : list (cstr * record)) (r : record) : Prop := exists a f b, fs = (a ++ f :: b)%list /\ snd f = r /\ failure user t f /\ forall g, In g b -> ~ failure user t g.
Lemma failure_iff : forall user t f, - 2 ^ 31 <= t < 2 ^ 31 -> ((zext64 t <=? zext32 (r_time (snd f))) && streq (fst f) (firstn 32 user) = true <-> failure user t f).
Proof.
  intros user t f T. rewrite andb_true_iff, Z.leb_le, streq_eq. unfold failure, zext64, zext32. pose proof (Z.mod_pos_bound (r_time (snd f)) (2 ^ 32) ltac:(lia)) as B. split.
  - intros (L & S). split; [exact S|]. assert (P : 0 <= t).
    { destruct (Z.le_gt_cases 0 t) as [X|X]; [exact X|]. replace t with ((t + 2 ^ 64) + (-1) * 2 ^ 64) in L by lia. rewrite Z.mod_add in L by lia. rewrite Z.mod_small in L by lia. lia. }
    split; [exact P|]. rewrite Z.mod_small in L by lia. exists (r_time (snd f) mod 2 ^ 32), (r_time (snd f) / 2 ^ 32). split; [exact B|]. split; [|exact L]. pose proof (Z.div_mod (r_time (snd f)) (2 ^ 32) ltac:(lia)). lia.
  - intros (S & P & u & k & U & X & L). split; [|exact S]. rewrite X, Z.mod_add, Z.mod_small, (Z.mod_small u) by lia. exact L.
Qed.
Lemma count_spec : forall user t fs, - 2 ^ 31 <= t < 2 ^ 31 -> exists n o, count_failed user t fs = (n, o) /\ number (failure user t) fs n /\
  match o with None => n = 0%nat | Some r => (0 < n)%nat /\ last_failure user t fs r end.
Proof.
  intros user t fs T. unfold count_failed. induction fs as [|f fs (n & o & IH & N & O)] using rev_ind; [exists 0%nat, None; split; [reflexivity|split; [apply number_nil|reflexivity]]|].
  rewrite fold_left_app. cbn [fold_left]. rewrite IH. cbn [fst snd]. pose proof (failure_iff user t f T) as F. destruct (number_snoc (failure user t) fs n f N) as (N1 & N2).
  destruct ((zext64 t <=? zext32 (r_time (snd f))) && streq (fst f) (firstn 32 user)).
  - exists (S n), (Some (snd f)). split; [reflexivity|]. split; [apply N1, F; reflexivity|]. split; [lia|]. exists fs, f, []. split; [reflexivity|]. split; [reflexivity|]. split; [apply F; reflexivity|intros g []].
  - assert (NF : ~ failure user t f) by (intro X; apply F in X; discriminate). exists n, o. split; [reflexivity|]. split; [apply N2, NF|]. destruct o as [r|]; [|exact O]. destruct O as (P & a & g & b & -> & R & G & B).
    split; [exact P|]. exists a, g, (b ++ [f])%list. split; [rewrite <- app_assoc; reflexivity|]. split; [exact R|]. split; [exact G|]. intros x I. apply in_app_or in I. destruct I as [I|[<-|[]]]; [apply B, I|exact NF].
Qed.
Lemma failed_cases : forall E silent args user t rv w, - 2 ^ 31 <= t < 2 ^ 31 -> last_login_failed E (session_parse silent args) user t = (rv, w) ->
  (w = [] /\ rv = PAM_SUCCESS /\ (e_btmp E = Missing \/ (e_btmp E = Opened /\ number (failure user t) (e_failed E) 0))) \/ (w = [] /\ rv = PAM_SERVICE_ERR /\ e_btmp E = Unopened) \/
  (e_btmp E = Opened /\ exists n r, (0 < n)%nat /\ number (failure user t) (e_failed E) n /\ last_failure user t (e_failed E) r /\
   ((w = [] /\ rv = PAM_BUF_ERR /\ (e_mem E (r_host r) = false \/ e_mem E (r_line r) = false)) \/
    exists d h l m, shown E args r d h l /\ (d = None /\ h = None /\ l = None /\ m = [] \/ ~ (d = None /\ h = None /\ l = None) /\ m = [Say (LastFailed d h l)]) /\
    ((w = (m ++ [Say (Failures n)])%list /\ rv = e_info E (Failures n)) \/ (w = m /\ rv = PAM_BUF_ERR /\ e_mem_n E = false)))).
Proof.
  intros E silent args user t rv w T H. unfold last_login_failed in H. destruct (e_btmp E) eqn:B; [|left; injection H as <- <-; auto|right; left; injection H as <- <-; auto].
  destruct (count_spec user t (e_failed E) T) as (n & o & X & N & O). rewrite X in H. destruct o as [r|]; [|left; injection H as <- <-; subst n; auto 6]. destruct O as (P & LF).
  right; right. split; [reflexivity|]. exists n, r. split; [exact P|]. split; [exact N|]. split; [exact LF|]. pose proof (parts_spec E silent args r) as Q. destruct (parts E (session_parse silent args) r) as [((d, h), l)|]; [|left; injection H as <- <-; auto].
  right. exists d, h, l. cbv zeta in H. exists (if nothing (d, h, l) then [] else [Say (LastFailed d h l)]). split; [exact Q|]. split.
  - destruct (nothing (d, h, l)) eqn:NO; [left; apply nothing_iff in NO; tauto|right; split; [|reflexivity]]. intro Y. apply nothing_iff in Y. congruence.
  - destruct (e_mem_n E); injection H as <- <-; auto.
Qed.
(** Effects that touch neither the file, the limit nor wtmp. *)
Definition plain (e : effect) : Prop := match e with Write _ _ | SetLimit _ | Wtmp _ _ _ => False | _ => True end.
Lemma reading_plain : forall uid e, reading uid e -> plain e.
Proof. intros uid e [->|[->| ->]]; exact I. Qed.
Lemma read_plain : forall E silent args uid rv t w, last_login_read E (session_parse silent args) uid = (rv, t, w) -> forall e, In e w -> plain e.
Proof.
  intros E silent args uid rv t w H e I. apply read_cases in H. destruct H as (_ & w0 & m & -> & W & H). apply in_app_or in I. destruct I as [I|I]; [exact (reading_plain _ _ (W _ I))|].
  destruct H as [(-> & _)|[(-> & _)|[(_ & r & d & h & l & _ & _ & _ & _ & -> & _)|(_ & _ & _ & -> & _)]]]; [destruct I|destruct I| |]; destruct I as [<-|[]]; exact Coq.Init.Logic.I.
Qed.
Lemma failed_plain : forall E silent args user t rv w, - 2 ^ 31 <= t < 2 ^ 31 -> last_login_failed E (session_parse silent args) user t = (rv, w) -> forall e, In e w -> plain e /\ forall d h l, e <> Say (LastLogin d h l).
Proof.
  intros E silent args user t rv w T H e I. apply failed_cases in H; [|exact T]. destruct H as [(-> & _)|[(-> & _)|(_ & n & r & _ & _ & _ & [(-> & _)|(d & h & l & m & _ & M & W)])]]; [destruct I|destruct I|destruct I|].
  assert (IM : In e m -> plain e /\ forall d h l, e <> Say (LastLogin d h l)).
  { intro J. destruct M as [(_ & _ & _ & ->)|(_ & ->)]; [destruct J|]. destruct J as [<-|[]]. split; [exact Coq.Init.Logic.I|discriminate]. }
  destruct W as [(-> & _)|(-> & _)]; [|apply IM, I]. apply in_app_or in I. destruct I as [I|[<-|[]]]; [apply IM, I|]. split; [exact Coq.Init.Logic.I|discriminate].
Qed.
Definition openable (E : env) (args : list cstr) : Prop := e_seek E = true /\ ((~ has "noupdate" args /\ (e_open E true = Opened \/ (e_open E true = Missing /\ e_create E = true))) \/ (has "noupdate" args /\ e_open E false = Opened)).
Lemma update_cases : forall silent args, (c_update (session_parse silent args) = true /\ ~ has "noupdate" args) \/ (c_update (session_parse silent args) = false /\ has "noupdate" args).
Proof.
  intros silent args. destruct (ctrl_spec silent args) as (_ & _ & _ & _ & _ & _ & _ & FU & _). destruct (c_update (session_parse silent args)); [left; split; [reflexivity|apply FU; reflexivity]|right; split; [reflexivity|]].
  destruct (in_dec (list_eq_dec ascii_dec) (lit "noupdate") args) as [X|X]; [exact X|]. apply FU in X. discriminate.
Qed.
Lemma open_cases : forall E silent args o w, last_login_open E (c_update (session_parse silent args)) = (o, w) -> (o = true <-> openable E args) /\ forall e, In e w -> e = Create /\ ~ has "noupdate" args.
Proof.
  intros E silent args o w H. unfold openable. destruct (update_cases silent args) as [(U & N)|(U & N)]; rewrite U in H; unfold last_login_open in H.
  - destruct (e_open E true).
    + injection H as <- <-. split; [|intros e []]. split; [intros ->; auto|intros (X & _); exact X].
    + destruct (e_create E); injection H as <- <-; (split; [|]); [split; [intros ->; auto 6|intros (X & _); exact X]|intros e [<-|[]]; auto|split; [discriminate|intros (_ & [(_ & [X|(_ & X)])|(X & _)]); try discriminate; destruct (N X)]|intros e []].
    + injection H as <- <-. split; [|intros e []]. split; [discriminate|intros (_ & [(_ & [X|(X & _)])|(X & _)]); try discriminate; destruct (N X)].
  - destruct (e_open E false); injection H as <- <-; (split; [|intros e []]).
    + split; [intros ->; auto|intros (X & _); exact X].
    + split; [discriminate|intros (_ & [(X & _)|(_ & X)]); [destruct (X N)|discriminate]].
    + split; [discriminate|intros (_ & [(X & _)|(_ & X)]); [destruct (X N)|discriminate]].
Qed.
(** The whole session: what comes before recording the login, the recording, and what comes after. *)
Inductive staged (E : env) (silent : bool) (args : list cstr) : Z -> list effect -> Prop :=
| Unknown : (e_user E = None \/ e_user E = Some [] \/ exists u, e_user E = Some u /\ e_pw E u = None) -> staged E silent args PAM_USER_UNKNOWN []
| Known : forall user uid rv1 t w1 rv w2, user_id E user uid -> last_time E uid t \/ (rv1 <> PAM_SUCCESS /\ t = 0) ->
    ((unnoted E uid /\ rv1 = PAM_SUCCESS /\ w1 = []) \/
     (noted E uid /\ ~ openable E args /\ rv1 = PAM_SERVICE_ERR /\ (forall e, In e w1 -> e = Create /\ ~ has "noupdate" args)) \/
     (noted E uid /\ openable E args /\ exists wo wr rv0, (forall e, In e wo -> e = Create /\ ~ has "noupdate" args) /\ last_login_read E (session_parse silent args) uid = (rv0, t, wr) /\
       ((w1 = (wo ++ wr)%list /\ rv1 = rv0 /\ (rv0 <> PAM_SUCCESS \/ has "noupdate" args)) \/
        (rv0 = PAM_SUCCESS /\ ~ has "noupdate" args /\ exists ww, last_login_write E (session_parse silent args) uid user = (rv1, ww) /\ w1 = (wo ++ wr ++ ww)%list)))) ->
    ((w2 = [] /\ rv = rv1 /\ ~ (has "showfailed" args /\ silent = false /\ rv1 = PAM_SUCCESS)) \/
     (has "showfailed" args /\ silent = false /\ rv1 = PAM_SUCCESS /\ last_login_failed E (session_parse silent args) user t = (rv, w2))) ->
    staged E silent args rv (w1 ++ w2).
Lemma session_staged : forall E silent args rv w, open_session E silent args = (rv, w) -> staged E silent args rv w.
Proof.
  intros E silent args rv w H. unfold open_session in H. cbv zeta in H. destruct (e_user E) as [[|c0 user0]|] eqn:EU; [injection H as <- <-; apply Unknown; auto| |injection H as <- <-; apply Unknown; auto].
  set (user := c0 :: user0) in *. destruct (e_pw E user) as [uid|] eqn:EP; [|injection H as <- <-; apply Unknown; right; right; eauto].
  destruct (last_login_date E (session_parse silent args) uid user) as [[rv1 t] w1] eqn:D.
  assert (UI : user_id E user uid) by (split; [exact EU|split; [discriminate|exact EP]]).
  assert (G : exists w2, w = (w1 ++ w2)%list /\ ((w2 = [] /\ rv = rv1 /\ ~ (has "showfailed" args /\ silent = false /\ rv1 = PAM_SUCCESS)) \/
     (has "showfailed" args /\ silent = false /\ rv1 = PAM_SUCCESS /\ last_login_failed E (session_parse silent args) user t = (rv, w2)))).
  { destruct (ctrl_spec silent args) as (_ & _ & _ & _ & _ & _ & FB & _). destruct (c_btmp (session_parse silent args) && (rv1 =? PAM_SUCCESS)) eqn:B.
    - apply andb_true_iff in B. destruct B as (B1 & B2). apply FB in B1. apply Z.eqb_eq in B2. destruct (last_login_failed E (session_parse silent args) user t) as [rv2 w2] eqn:Q. injection H as <- <-. exists w2. split; [reflexivity|]. right. tauto.
    - injection H as <- <-. exists []. split; [rewrite app_nil_r; reflexivity|]. left. split; [reflexivity|]. split; [reflexivity|]. intros (X & Y & Z). assert (c_btmp (session_parse silent args) = true) by (apply FB; auto). rewrite H, Z in B. discriminate B. }
  destruct G as (w2 & -> & G). unfold last_login_date in D. pose proof (uid_max_spec E) as M. destruct (Z.ltb_spec (uid_max E) uid) as [L|L].
  { injection D as <- <- <-. assert (UN : unnoted E uid) by (exists (uid_max E); auto). apply (Known E silent args user uid PAM_SUCCESS 0 []); auto. left. left. auto. }
  assert (NO : noted E uid) by (exists (uid_max E); auto). destruct (last_login_open E (c_update (session_parse silent args))) as [o wo] eqn:O. apply open_cases in O. destruct O as (O1 & O2). destruct o; cbn [negb] in D.
  - assert (OP : openable E args) by (apply O1; reflexivity). destruct (last_login_read E (session_parse silent args) uid) as [[rv0 t0] wr] eqn:R. pose proof (read_cases E silent args uid rv0 t0 wr R) as (T & _).
    assert (LT : last_time E uid t0). { right. split; [exact NO|]. destruct T as (r & [T|T]); [left; eauto|right; exact T]. }
    destruct (Z.eqb_spec rv0 PAM_SUCCESS) as [S0|S0]; cbn [negb] in D.
    + destruct (update_cases silent args) as [(U & N)|(U & N)]; rewrite U in D.
      * destruct (last_login_write E (session_parse silent args) uid user) as [rv9 ww] eqn:W. injection D as <- <- <-. apply (Known E silent args user uid rv9 t0 (wo ++ wr ++ ww)%list); auto. right; right. split; [exact NO|]. split; [exact OP|].
        exists wo, wr, rv0. split; [exact O2|]. split; [exact R|]. right. split; [exact S0|]. split; [exact N|]. exists ww. auto.
      * injection D as <- <- <-. apply (Known E silent args user uid rv0 t0 (wo ++ wr)%list); auto. right; right. split; [exact NO|]. split; [exact OP|]. exists wo, wr, rv0. split; [exact O2|]. split; [exact R|]. left. split; [reflexivity|]. split; [reflexivity|auto].
    + injection D as <- <- <-. apply (Known E silent args user uid rv0 t0 (wo ++ wr)%list); auto. right; right. split; [exact NO|]. split; [exact OP|]. exists wo, wr, rv0. split; [exact O2|]. split; [exact R|]. left. split; [reflexivity|]. split; [reflexivity|auto].
  - assert (OP : ~ openable E args) by (intro X; apply O1 in X; discriminate). injection D as <- <- <-. apply (Known E silent args user uid PAM_SERVICE_ERR 0 wo); [exact UI|right; split; [discriminate|reflexivity]|auto 8|exact G].
Qed.
Lemma last_time_range : forall E uid t rv, times32 E -> last_time E uid t \/ (rv <> PAM_SUCCESS /\ t = 0) -> - 2 ^ 31 <= t < 2 ^ 31.
Proof. intros E uid t rv T [[(_ & ->)|(_ & [(r & R & ->)|(_ & ->)])]|(_ & ->)]; [lia|exact (T _ _ R)|lia|lia]. Qed.
Lemma session_split : forall E silent args rv w, times32 E -> staged E silent args rv w -> w = [] /\ rv = PAM_USER_UNKNOWN \/
  exists user uid rv1 a b c, user_id E user uid /\ w = (a ++ b ++ c)%list /\ (forall e, In e a -> plain e) /\ (forall e, In e c -> plain e) /\ (rv1 <> PAM_SUCCESS -> rv = rv1 /\ c = []) /\
    ((b = [] /\ (rv1 = PAM_SUCCESS -> unnoted E uid \/ has "noupdate" args)) \/ (noted E uid /\ ~ has "noupdate" args /\ recorded E args uid user rv1 b)).
Proof.
  intros E silent args rv w T32 H. inversion H as [U|user uid rv1 t w1 rv' w2 UI LT S1 S2]; [left; auto|]. right. assert (T : - 2 ^ 31 <= t < 2 ^ 31) by (exact (last_time_range _ _ _ _ T32 LT)).
  assert (C : (forall e, In e w2 -> plain e) /\ (rv1 <> PAM_SUCCESS -> rv = rv1 /\ w2 = [])).
  { destruct S2 as [(-> & -> & _)|(_ & _ & X & Q)]; [split; [intros e []|auto]|]. split; [intros e I; exact (proj1 (failed_plain _ _ _ _ _ _ _ T Q e I))|intro Y; destruct (Y X)]. }
  destruct C as (C1 & C2). destruct S1 as [(UN & X & ->)|[(NO & OP & X & W)|(NO & OP & wo & wr & rv0 & WO & R & [(-> & -> & X)|(X & NU & ww & W & ->)])]].
  - exists user, uid, rv1, [], [], w2. split; [exact UI|]. split; [reflexivity|]. split; [intros e []|]. split; [exact C1|]. split; [exact C2|]. left. auto.
  - exists user, uid, rv1, w1, [], w2. split; [exact UI|]. split; [reflexivity|]. split; [intros e I; destruct (W _ I) as (-> & _); exact Coq.Init.Logic.I|]. split; [exact C1|]. split; [exact C2|]. left. split; [reflexivity|]. rewrite X. discriminate.
  - exists user, uid, rv0, (wo ++ wr)%list, [], w2. split; [exact UI|]. split; [reflexivity|]. split.
    { intros e I. apply in_app_or in I. destruct I as [I|I]; [destruct (WO _ I) as (-> & _); exact Coq.Init.Logic.I|exact (read_plain _ _ _ _ _ _ _ R e I)]. }
    split; [exact C1|]. split; [exact C2|]. left. split; [reflexivity|]. intro Y. destruct X as [X|X]; [destruct (X Y)|auto].
  - assert (A : forall e, In e (wo ++ wr)%list -> plain e). { intros e I. apply in_app_or in I. destruct I as [I|I]; [destruct (WO _ I) as (-> & _); exact Coq.Init.Logic.I|exact (read_plain _ _ _ _ _ _ _ R e I)]. }
    apply write_cases in W. destruct W as [(-> & S & _)|W].
    + exists user, uid, PAM_SERVICE_ERR, (wo ++ wr ++ ww)%list, [], w2. split; [exact UI|]. split; [reflexivity|]. split.
      { intros e I. rewrite app_assoc in I. apply in_app_or in I. destruct I as [I|I]; [apply A, I|rewrite (S _ I); exact Coq.Init.Logic.I]. }
      split; [exact C1|]. split; [exact C2|]. left. split; [reflexivity|discriminate].
    + exists user, uid, rv1, (wo ++ wr)%list, ww, w2. split; [exact UI|]. split; [rewrite <- !app_assoc; reflexivity|]. auto 10.
Qed.
Definition limits_only (l : list effect) : Prop := forall e, In e l -> exists b, e = SetLimit b.
Definition no_write (l : list effect) : Prop := forall u r, ~ In (Write u r) l.
Lemma plain_no_write : forall l, (forall e, In e l -> plain e) -> no_write l.
Proof. intros l H u r I. exact (H _ I). Qed.
Lemma in_three : forall (e : effect) a b c, In e (a ++ b ++ c) -> (forall x, In x a -> plain x) -> (forall x, In x c -> plain x) -> ~ plain e -> In e b.
Proof. intros e a b c I A C P. apply in_app_or in I. destruct I as [I|I]; [destruct (P (A _ I))|]. apply in_app_or in I. destruct I as [I|I]; [exact I|destruct (P (C _ I))]. Qed.

(** C110: a login is recorded once at most, under the uid of the user, with the lock of the record, and the record has the time, the terminal and the host. *)
Theorem lastlog_recorded : forall E silent args u r, times32 E -> In (Write u r) (snd (open_session E silent args)) ->
  (exists user, user_id E user u) /\ noted E u /\ ~ has "noupdate" args /\ (exists j, (j < 3)%nat /\ e_wlock E j = true) /\
  kept (e_now E) (r_time r) /\ (exists t, terminal E t /\ r_line r = firstn 31 t) /\ (exists h, remote E h /\ r_host r = firstn 255 h) /\
  exists a b1 b2 c, snd (open_session E silent args) = (a ++ Lock true u :: b1 ++ Write u r :: b2 ++ Unlock u :: c)%list /\ limits_only b1 /\ limits_only b2 /\ no_write a /\ no_write c.
Proof.
  intros E silent args u r T I. destruct (open_session E silent args) as [rv w] eqn:Q. cbn [snd] in *. apply session_staged in Q. apply session_split in Q; [|exact T].
  destruct Q as [(-> & _)|(user & uid & rv1 & a & b & c & UI & -> & A & C & _ & B)]; [destruct I|]. apply in_three in I; [|exact A|exact C|intro X; exact X]. destruct B as [(-> & _)|(NO & NU & R)]; [destruct I|].
  destruct R as (ws & r0 & tty & h & lifted & WS & K & TT & RH & RL & RO & LK & LI & RV & wt & WT & W).
  assert (X : e_write E = true /\ u = uid /\ r = r0).
  { subst b. apply in_app_or in I. destruct I as [I|[I|I]]; [discriminate (WS _ I)|discriminate|]. apply in_app_or in I. destruct I as [I|I]; [destruct lifted; [destruct I as [I|[]]; discriminate|destruct I]|]. apply in_app_or in I.
    destruct I as [I|I]; [destruct (e_write E); [destruct I as [I|[]]; injection I as -> ->; auto|destruct I]|]. apply in_app_or in I. destruct I as [I|[I|I]]; [destruct (lifted && e_restore E); [destruct I as [I|[]]; discriminate|destruct I]|discriminate|].
    destruct WT as [(_ & ->)|(_ & ->)]; [destruct I as [I|[]]; discriminate|destruct I]. }
  destruct X as (EW & -> & ->). split; [exists user; exact UI|]. split; [exact NO|]. split; [exact NU|]. split; [exact LK|]. split; [exact K|]. split; [eauto|]. split; [eauto|].
  exists (a ++ ws)%list, (if lifted then [SetLimit true] else []), (if lifted && e_restore E then [SetLimit false] else []), (wt ++ c)%list. rewrite EW in W. split; [|split; [|split; [|split]]].
  - subst b. rewrite <- !app_assoc. cbn [app]. rewrite <- !app_assoc. cbn [app]. rewrite <- !app_assoc. cbn [app]. reflexivity.
  - intros e J. destruct lifted; [destruct J as [<-|[]]; eauto|destruct J].
  - intros e J. destruct (lifted && e_restore E); [destruct J as [<-|[]]; eauto|destruct J].
  - intros u' r' J. apply in_app_or in J. destruct J as [J|J]; [exact (A _ J)|discriminate (WS _ J)].
  - intros u' r' J. apply in_app_or in J. destruct J as [J|J]; [|exact (C _ J)]. destruct WT as [(_ & ->)|(_ & ->)]; [destruct J as [J|[]]; discriminate|destruct J].
Qed.
(** C110: success means that the login is recorded, in wtmp too, if the options do not forbid it. *)
Theorem lastlog_success : forall E silent args, times32 E -> fst (open_session E silent args) = PAM_SUCCESS -> exists user uid, user_id E user uid /\
  (unnoted E uid \/ has "noupdate" args \/
   (noted E uid /\ (exists r, In (Write uid r) (snd (open_session E silent args))) /\
    (has "nowtmp" args \/ exists t h, terminal E t /\ remote E h /\ In (Wtmp (firstn 31 t) user h) (snd (open_session E silent args))))).
Proof.
  intros E silent args T F. destruct (open_session E silent args) as [rv w] eqn:Q. cbn [fst snd] in *. subst rv. apply session_staged in Q. apply session_split in Q; [|exact T].
  destruct Q as [(_ & X)|(user & uid & rv1 & a & b & c & UI & -> & A & C & N & B)]; [discriminate|]. exists user, uid. split; [exact UI|].
  assert (S1 : rv1 = PAM_SUCCESS) by (destruct (Z.eq_dec rv1 PAM_SUCCESS) as [X|X]; [exact X|]; destruct (N X) as (Y & _); congruence).
  destruct B as [(_ & B)|(NO & NU & R)]; [destruct (B S1); auto|]. right; right. split; [exact NO|]. destruct R as (ws & r0 & tty & h & lifted & WS & K & TT & RH & RL & RO & LK & LI & RV & wt & WT & W).
  assert (EW : e_write E = true) by (destruct RV as [(_ & X & _)|(X & _)]; [exact X|rewrite S1 in X; discriminate]). rewrite EW in W. split.
  - exists r0. apply in_or_app. right. apply in_or_app. left. subst b. apply in_or_app. right. right. apply in_or_app. right. left. reflexivity.
  - destruct WT as [(_ & X)|(X & _)].
    + right. exists tty, h. split; [exact TT|]. split; [exact RH|]. apply in_or_app. right. apply in_or_app. left. subst b wt. rewrite <- RL. apply in_or_app. right. right. apply in_or_app. right. apply in_or_app. right. apply in_or_app. right. right. left. reflexivity.
    + left. destruct (in_dec (list_eq_dec ascii_dec) (lit "nowtmp") args) as [J|J]; [exact J|]. destruct (X (conj J NU)).
Qed.
(** C110: an entry of wtmp names the user, the terminal and the host, and needs the lock of the record. *)
Theorem lastlog_wtmp : forall E silent args l u h, times32 E -> In (Wtmp l u h) (snd (open_session E silent args)) ->
  (exists uid, user_id E u uid /\ noted E uid) /\ ~ has "nowtmp" args /\ ~ has "noupdate" args /\ (exists t, terminal E t /\ l = firstn 31 t) /\ remote E h /\ exists j, (j < 3)%nat /\ e_wlock E j = true.
Proof.
  intros E silent args l u h T I. destruct (open_session E silent args) as [rv w] eqn:Q. cbn [snd] in *. apply session_staged in Q. apply session_split in Q; [|exact T].
  destruct Q as [(-> & _)|(user & uid & rv1 & a & b & c & UI & -> & A & C & _ & B)]; [destruct I|]. apply in_three in I; [|exact A|exact C|intro X; exact X]. destruct B as [(-> & _)|(NO & NU & R)]; [destruct I|].
  destruct R as (ws & r0 & tty & h0 & lifted & WS & K & TT & RH & RL & RO & LK & LI & RV & wt & WT & W). subst b.
  apply in_app_or in I. destruct I as [I|[I|I]]; [discriminate (WS _ I)|discriminate|]. apply in_app_or in I. destruct I as [I|I]; [destruct lifted; [destruct I as [I|[]]; discriminate|destruct I]|]. apply in_app_or in I.
  destruct I as [I|I]; [destruct (e_write E); [destruct I as [I|[]]; discriminate|destruct I]|]. apply in_app_or in I. destruct I as [I|[I|I]]; [destruct (lifted && e_restore E); [destruct I as [I|[]]; discriminate|destruct I]|discriminate|].
  destruct WT as [((N1 & N2) & ->)|(_ & ->)]; [|destruct I]. destruct I as [I|[]]. injection I as <- <- <-. split; [exists uid; auto|]. split; [exact N1|]. split; [exact N2|]. split; [exists tty; auto|]. auto.
Qed.
(** C110: the limit of file sizes is lifted only with the option, and set again after that, or the result is an error. *)
Theorem lastlog_limit : forall E silent args, times32 E -> In (SetLimit true) (snd (open_session E silent args)) ->
  has "unlimited" args /\ e_limit E = Some false /\
  ((exists a b c, snd (open_session E silent args) = (a ++ SetLimit true :: b ++ SetLimit false :: c)%list /\ forall x, ~ In (SetLimit x) (a ++ b ++ c)) \/ (e_restore E = false /\ fst (open_session E silent args) = PAM_SERVICE_ERR)).
Proof.
  intros E silent args T I. destruct (open_session E silent args) as [rv w] eqn:Q. cbn [fst snd] in *. apply session_staged in Q. apply session_split in Q; [|exact T].
  destruct Q as [(-> & _)|(user & uid & rv1 & a & b & c & UI & -> & A & C & N & B)]; [destruct I|]. apply in_three in I; [|exact A|exact C|intro X; exact X]. destruct B as [(-> & _)|(NO & NU & R)]; [destruct I|].
  destruct R as (ws & r0 & tty & h0 & lifted & WS & K & TT & RH & RL & RO & LK & LI & RV & wt & WT & W).
  assert (WTL : forall x, ~ In (SetLimit x) wt) by (intros x J; destruct WT as [(_ & ->)|(_ & ->)]; [destruct J as [J|[]]; discriminate|destruct J]).
  assert (LF : lifted = true).
  { subst b. apply in_app_or in I. destruct I as [I|[I|I]]; [discriminate (WS _ I)|discriminate|]. apply in_app_or in I. destruct I as [I|I]; [destruct lifted; [reflexivity|destruct I]|]. apply in_app_or in I.
    destruct I as [I|I]; [destruct (e_write E); [destruct I as [I|[]]; discriminate|destruct I]|]. apply in_app_or in I. destruct I as [I|[I|I]]; [destruct (lifted && e_restore E); [destruct I as [I|[]]; discriminate|destruct I]|discriminate|]. destruct (WTL _ I). }
  destruct (proj1 LI LF) as (L1 & L2 & L3). split; [exact L1|]. split; [exact L2|]. destruct (e_restore E) eqn:ER.
  - left. rewrite LF in W. cbn [andb] in W. exists (a ++ ws ++ [Lock true uid])%list, (if e_write E then [Write uid r0] else []), (Unlock uid :: wt ++ c)%list. split.
    + subst b. rewrite <- !app_assoc. cbn [app]. rewrite <- !app_assoc. cbn [app]. reflexivity.
    + intros x J. apply in_app_or in J. destruct J as [J|J].
      * apply in_app_or in J. destruct J as [J|J]; [exact (A _ J)|]. apply in_app_or in J. destruct J as [J|[J|[]]]; [discriminate (WS _ J)|discriminate].
      * apply in_app_or in J. destruct J as [J|[J|J]]; [destruct (e_write E); [destruct J as [J|[]]; discriminate|destruct J]|discriminate|]. apply in_app_or in J. destruct J as [J|J]; [destruct (WTL _ J)|exact (C _ J)].
  - right. split; [reflexivity|]. destruct RV as [(_ & _ & X)|(X & _)]; [discriminate (X LF)|]. destruct (N ltac:(rewrite X; discriminate)) as (-> & _). exact X.
Qed.
(** C110: what is said of the last login is what the record says, if the session is not silent; and it is said if there is a record. *)
Theorem lastlog_last_login : forall E silent args d h l, times32 E -> In (Say (LastLogin d h l)) (snd (open_session E silent args)) ->
  loud silent args /\ ~ (d = None /\ h = None /\ l = None) /\ exists user uid r, user_id E user uid /\ noted E uid /\ openable E args /\ e_read E uid = Some r /\ r_time r <> 0 /\ shown E args r d h l.
Proof.
  intros E silent args d h l T32 I. destruct (open_session E silent args) as [rv w] eqn:Q. cbn [snd] in *. apply session_staged in Q. inversion Q as [U|user uid rv1 t w1 rv' w2 UI LT S1 S2]; subst; [destruct I|].
  pose proof (last_time_range _ _ _ _ T32 LT) as T. apply in_app_or in I. destruct I as [I|I].
  2:{ destruct S2 as [(-> & _)|(_ & _ & _ & F)]; [destruct I|]. destruct (proj2 (failed_plain _ _ _ _ _ _ _ T F _ I) d h l eq_refl). }
  assert (RD : forall wo wr rv0, (forall e, In e wo -> e = Create /\ ~ has "noupdate" args) -> last_login_read E (session_parse silent args) uid = (rv0, t, wr) -> In (Say (LastLogin d h l)) (wo ++ wr) ->
    loud silent args /\ ~ (d = None /\ h = None /\ l = None) /\ exists r, e_read E uid = Some r /\ r_time r <> 0 /\ shown E args r d h l).
  { intros wo wr rv0 WO R J. apply in_app_or in J. destruct J as [J|J]; [destruct (WO _ J) as (X & _); discriminate X|]. apply read_cases in R. destruct R as (_ & w0 & m & -> & W0 & R). apply in_app_or in J. destruct J as [J|J]; [destruct (W0 _ J) as [X|[X|X]]; discriminate X|].
    destruct R as [(-> & _)|[(-> & _)|[(LD & r & d0 & h0 & l0 & E1 & E2 & E3 & E4 & -> & _)|(_ & _ & _ & -> & _)]]]; [destruct J|destruct J| |destruct J as [J|[]]; discriminate J]. destruct J as [J|[]]. injection J as -> -> ->. split; [exact LD|]. split; [exact E4|]. eauto. }
  destruct S1 as [(_ & _ & ->)|[(_ & _ & _ & W)|(NO & OP & wo & wr & rv0 & WO & R & S1)]]; [destruct I|destruct (W _ I) as (X & _); discriminate X|].
  assert (J : In (Say (LastLogin d h l)) (wo ++ wr)).
  { destruct S1 as [(-> & _)|(_ & _ & ww & W & ->)]; [exact I|]. rewrite app_assoc in I. apply in_app_or in I. destruct I as [I|I]; [exact I|]. exfalso. apply write_cases in W. destruct W as [(_ & S & _)|W]; [discriminate (S _ I)|].
    destruct W as (ws & r0 & tty & h0 & lifted & WS & _ & _ & _ & _ & _ & _ & _ & _ & wt & WT & ->). apply in_app_or in I. destruct I as [I|[I|I]]; [discriminate (WS _ I)|discriminate|]. apply in_app_or in I. destruct I as [I|I]; [destruct lifted; [destruct I as [I|[]]; discriminate|destruct I]|]. apply in_app_or in I.
    destruct I as [I|I]; [destruct (e_write E); [destruct I as [I|[]]; discriminate|destruct I]|]. apply in_app_or in I. destruct I as [I|[I|I]]; [destruct (lifted && e_restore E); [destruct I as [I|[]]; discriminate|destruct I]|discriminate|].
    destruct WT as [(_ & ->)|(_ & ->)]; [destruct I as [I|[]]; discriminate|destruct I]. }
  destruct (RD _ _ _ WO R J) as (X & Y & r & Z). split; [exact X|]. split; [exact Y|]. exists user, uid, r. tauto.
Qed.
Theorem lastlog_told : forall E silent args user uid r, user_id E user uid -> fst (open_session E silent args) = PAM_SUCCESS -> loud silent args -> (forall m, largest E m -> uid <= m) -> e_read E uid = Some r -> r_time r <> 0 ->
  shown E args r None None None \/ exists d h l, shown E args r d h l /\ In (Say (LastLogin d h l)) (snd (open_session E silent args)).
Proof.
  intros E silent args user uid r (U1 & U2 & U3) F LD NM ER RT. destruct (open_session E silent args) as [rv w] eqn:Q. cbn [fst snd] in *. subst rv. apply session_staged in Q. inversion Q as [U|user' uid' rv1 t w1 rv' w2 (V1 & V2 & V3) LT S1 S2]; subst.
  assert (user' = user) as -> by congruence. assert (uid' = uid) as -> by congruence.
  assert (R1 : rv1 = PAM_SUCCESS) by (destruct S2 as [(_ & X & _)|(_ & _ & X & _)]; congruence). subst rv1.
  destruct S1 as [((m & M1 & M2) & _)|[(_ & _ & X & _)|(_ & _ & wo & wr & rv0 & WO & R & S1)]]; [specialize (NM _ M1); lia|discriminate|].
  assert (R0 : rv0 = PAM_SUCCESS /\ forall e, In e wr -> In e (w1 ++ w2)).
  { destruct S1 as [(-> & X & _)|(X & _ & ww & _ & ->)]; (split; [congruence|]); intros e J; apply in_or_app; left; apply in_or_app; right; [exact J|apply in_or_app; left; exact J]. }
  destruct R0 as (-> & IN). apply read_cases in R. destruct R as ((r1 & R1) & w0 & m & -> & _ & R).
  destruct R as [(-> & _ & X)|[(_ & X & _)|[(_ & r' & d & h & l & E1 & _ & E3 & _ & -> & _)|(_ & X & _)]]]; [|discriminate X| |].
  - destruct X as [X|[(r' & E1 & _ & E3)|(X & _)]]; [destruct (X LD)| |]; [left; assert (r' = r) by congruence; subst r'; exact E3|]. exfalso. destruct R1 as [(Y & Z)|(Y & _)]; [assert (r1 = r) by congruence; subst r1; congruence|congruence].
  - right. assert (r' = r) by congruence. subst r'. exists d, h, l. split; [exact E3|]. apply IN, in_or_app. right. left. reflexivity.
  - exfalso. destruct R1 as [(Y & Z)|(Y & _)]; [assert (r1 = r) by congruence; subst r1; congruence|congruence].
Qed.
(** C110: the failures told are those in btmp since the last login, and they are told on success if there are any. *)
Theorem lastlog_failures : forall E silent args, times32 E -> fst (open_session E silent args) = PAM_SUCCESS ->
  ~ (has "showfailed" args /\ silent = false) /\ (forall n, ~ In (Say (Failures n)) (snd (open_session E silent args))) \/
  (has "showfailed" args /\ silent = false) /\ exists user uid t, user_id E user uid /\ last_time E uid t /\
    ((e_btmp E = Missing \/ (e_btmp E = Opened /\ number (failure user t) (e_failed E) 0)) /\ (forall n, ~ In (Say (Failures n)) (snd (open_session E silent args))) \/
     exists n r d h l, (0 < n)%nat /\ e_btmp E = Opened /\ number (failure user t) (e_failed E) n /\ last_failure user t (e_failed E) r /\ shown E args r d h l /\
       exists a, (d = None /\ h = None /\ l = None) /\ snd (open_session E silent args) = (a ++ [Say (Failures n)])%list \/
                 ~ (d = None /\ h = None /\ l = None) /\ snd (open_session E silent args) = (a ++ [Say (LastFailed d h l); Say (Failures n)])%list).
Proof.
  intros E silent args T32 F. destruct (open_session E silent args) as [rv w] eqn:Q. cbn [fst snd] in *. subst rv. apply session_staged in Q. inversion Q as [U|user uid rv1 t w1 rv' w2 UI LT S1 S2]; subst.
  pose proof (last_time_range _ _ _ _ T32 LT) as T.
  assert (W1 : forall n, ~ In (Say (Failures n)) w1).
  { intros n I. assert (WO : forall wo, (forall e, In e wo -> e = Create /\ ~ has "noupdate" args) -> ~ In (Say (Failures n)) wo) by (intros wo X J; destruct (X _ J) as (Y & _); discriminate Y).
    assert (WR : forall rv0 wr, last_login_read E (session_parse silent args) uid = (rv0, t, wr) -> ~ In (Say (Failures n)) wr).
    { intros rv0 wr R J. apply read_cases in R. destruct R as (_ & w0 & m & -> & W0 & R). apply in_app_or in J. destruct J as [J|J]; [destruct (W0 _ J) as [X|[X|X]]; discriminate X|].
      destruct R as [(-> & _)|[(-> & _)|[(_ & r & d0 & h0 & l0 & _ & _ & _ & _ & -> & _)|(_ & _ & _ & -> & _)]]]; [destruct J|destruct J|destruct J as [J|[]]; discriminate J|destruct J as [J|[]]; discriminate J]. }
    destruct S1 as [(_ & _ & ->)|[(_ & _ & _ & W)|(_ & _ & wo & wr & rv0 & O & R & S1)]]; [destruct I|exact (WO _ W I)|].
    destruct S1 as [(-> & _)|(_ & _ & ww & W & ->)]; (apply in_app_or in I; destruct I as [I|I]; [exact (WO _ O I)|]); [exact (WR _ _ R I)|]. apply in_app_or in I. destruct I as [I|I]; [exact (WR _ _ R I)|].
    apply write_cases in W. destruct W as [(_ & S & _)|W]; [discriminate (S _ I)|].
    destruct W as (ws & r0 & tty & h0 & lifted & WS & _ & _ & _ & _ & _ & _ & _ & _ & wt & WT & ->). apply in_app_or in I. destruct I as [I|[I|I]]; [discriminate (WS _ I)|discriminate|]. apply in_app_or in I. destruct I as [I|I]; [destruct lifted; [destruct I as [I|[]]; discriminate|destruct I]|]. apply in_app_or in I.
    destruct I as [I|I]; [destruct (e_write E); [destruct I as [I|[]]; discriminate|destruct I]|]. apply in_app_or in I. destruct I as [I|[I|I]]; [destruct (lifted && e_restore E); [destruct I as [I|[]]; discriminate|destruct I]|discriminate|].
    destruct WT as [(_ & ->)|(_ & ->)]; [destruct I as [I|[]]; discriminate|destruct I]. }
  destruct S2 as [(-> & <- & X)|(SF & SI & RS & FA)].
  - left. split; [tauto|]. intros n I. rewrite app_nil_r in I. exact (W1 _ I).
  - right. split; [auto|]. exists user, uid, t. split; [exact UI|]. split. { destruct LT as [LT|(X & _)]; [exact LT|congruence]. }
    apply failed_cases in FA; [|exact T]. destruct FA as [(-> & _ & X)|[(_ & X & _)|(OB & n & r & NP & NN & LF & [(_ & X & _)|(d & h & l & m & SH & M & [(-> & _)|(_ & X & _)])])]]; try discriminate X.
    + left. split; [exact X|]. intros n I. rewrite app_nil_r in I. exact (W1 _ I).
    + right. exists n, r, d, h, l. split; [exact NP|]. split; [exact OB|]. split; [exact NN|]. split; [exact LF|]. split; [exact SH|]. exists w1. destruct M as [(X1 & X2 & X3 & ->)|(X & ->)]; [left|right]; auto.
Qed.
(** C110: the results. *)
Theorem lastlog_result : forall E silent args, times32 E -> let r := fst (open_session E silent args) in
  (r = PAM_USER_UNKNOWN /\ (e_user E = None \/ e_user E = Some [] \/ exists u, e_user E = Some u /\ e_pw E u = None) /\ snd (open_session E silent args) = []) \/
  exists user uid, user_id E user uid /\
  (r = PAM_SUCCESS \/ (r = PAM_BUF_ERR /\ ((exists s, e_mem E s = false) \/ e_mem_n E = false)) \/ (exists m, In (Say m) (snd (open_session E silent args)) /\ r = e_info E m) \/
   (r = PAM_SERVICE_ERR /\ ((noted E uid /\ (~ openable E args \/ (~ has "noupdate" args /\ (e_seek2 E = false \/ (forall j, (j < 3)%nat -> e_wlock E j = false) \/ e_write E = false \/ (has "unlimited" args /\ e_restore E = false))))) \/
      (has "showfailed" args /\ silent = false /\ e_btmp E = Unopened)))).
Proof.
  intros E silent args T32 r. unfold r. clear r. destruct (open_session E silent args) as [rv w] eqn:Q. cbn [fst snd] in *. apply session_staged in Q. inversion Q as [U|user uid rv1 t w1 rv' w2 UI LT S1 S2]; subst; [left; auto|].
  right. exists user, uid. split; [exact UI|]. pose proof (last_time_range _ _ _ _ T32 LT) as T. destruct S2 as [(-> & -> & _)|(SF & SI & _ & FA)].
  - rewrite app_nil_r. destruct S1 as [(_ & -> & _)|[(NO & OP & -> & _)|(NO & OP & wo & wr & rv0 & _ & R & S1)]]; [auto|right; right; right; auto 6|].
    destruct S1 as [(-> & -> & _)|(-> & NU & ww & W & ->)].
    + apply read_cases in R. destruct R as (_ & w0 & m & -> & _ & R). destruct R as [(_ & -> & _)|[(_ & -> & r & _ & M)|[(_ & r & d & h & l & _ & _ & _ & _ & -> & ->)|(_ & _ & _ & -> & ->)]]].
      * auto.
      * right; left. split; [reflexivity|]. left. destruct M; eauto.
      * right; right; left. exists (LastLogin d h l). split; [apply in_or_app; right; apply in_or_app; right; left; reflexivity|reflexivity].
      * right; right; left. exists Welcome. split; [apply in_or_app; right; apply in_or_app; right; left; reflexivity|reflexivity].
    + apply write_cases in W. destruct W as [(-> & _ & X)|W]; [right; right; right; split; [reflexivity|]; left; split; [exact NO|]; right; split; [exact NU|]; tauto|].
      destruct W as (ws & r0 & tty & h0 & lifted & _ & _ & _ & _ & _ & _ & _ & LI & RV & _). destruct RV as [(-> & _)|(-> & X)]; [auto|]. right; right; right. split; [reflexivity|]. left. split; [exact NO|]. right. split; [exact NU|].
      destruct X as [X|(X & Y)]; [auto|]. destruct (proj1 LI X) as (Z & _). auto 6.
  - apply failed_cases in FA; [|exact T]. destruct FA as [(_ & -> & _)|[(_ & -> & X)|(_ & n & r & _ & _ & _ & [(_ & -> & M)|(d & h & l & m & _ & _ & [(-> & ->)|(_ & -> & X)])])]].
    + auto.
    + right; right; right. auto 6.
    + right; left. split; [reflexivity|]. left. destruct M; eauto.
    + right; right; left. exists (Failures n). split; [apply in_or_app; right; apply in_or_app; right; left; reflexivity|reflexivity].
    + right; left. auto.
Qed.
(** C110: the end of a session is noted in wtmp unless the options forbid it. *)
Theorem lastlog_closed : forall E silent args, exists t, terminal E t /\ fst (close_session E silent args) = PAM_SUCCESS /\
  ((~ has "nowtmp" args /\ ~ has "noupdate" args) /\ snd (close_session E silent args) = [Wtmp t [] []] \/ ~ (~ has "nowtmp" args /\ ~ has "noupdate" args) /\ snd (close_session E silent args) = []).
Proof.
  intros E silent args. exists (get_tty E). split; [apply tty_spec|]. destruct (ctrl_spec silent args) as (_ & _ & _ & _ & _ & FW & _). unfold close_session. destruct (c_wtmp (session_parse silent args)); (split; [reflexivity|]).
  - left. split; [apply FW; reflexivity|reflexivity].
  - right. split; [intro X; apply FW in X; discriminate|reflexivity].
Qed.
(** C109: who has logged in is not locked out for the days of the option, in the time before 2038. *)
Theorem lastlog_roundtrip : forall E silent args u r E' args' user, times32 E -> In (Write u r) (snd (open_session E silent args)) -> 0 < e_now E < 2 ^ 31 ->
  e_user E' = Some user -> e_pw E' user = Some u -> e_read E' u = Some r -> (forall d, latest gives_days args' 90 d -> e_now E' < e_now E + (d + 1) * 86400) -> fst (auth E' args') <> PAM_AUTH_ERR.
Proof.
  intros E silent args u r E' args' user T I N U P R D F. apply lastlog_recorded in I; [|exact T]. destruct I as (_ & _ & _ & _ & K & _). apply int32_spec in K. unfold int32 in K. rewrite Z.mod_small in K by lia.
  destruct (lastlog_inactive E' args') as (d & DL & [(X & _)|(user' & uid & U' & P' & _ & H)]); [rewrite F in X; discriminate|]. assert (user' = user) as -> by congruence. assert (uid = u) as -> by congruence.
  specialize (D _ DL). destruct H as [(X & _)|(_ & _ & [(X & _)|(_ & [(_ & r' & R' & _ & L)|(X & _)])])]; try (rewrite F in X; discriminate X). assert (r' = r) as -> by congruence. lia.
Qed.

(** ** Examples *)
Definition e0 : env := mkEnv (Some (lit "eva")) (fun u => if streq u (lit "eva") then Some 1001 else None) None (fun _ => Opened) true true true (fun _ => true) (fun i => Nat.eqb i 1)
  (fun u => if u =? 1001 then Some (mkRec 1000 (lit "tty1") (lit "far")) else None) (fun _ => true) (fun _ => true) true (fun _ => PAM_SUCCESS) 86400000 (Some (lit "near")) (Some (lit "/dev/pts/3")) (Some false) true true true
  Opened [(lit "eva", mkRec 900 [] []); (lit "eva", mkRec 2000 (lit "tty2") []); (lit "bob", mkRec 2001 [] [])].
Example e0_times : times32 e0.
Proof. intros uid r H. cbn in H. destruct (uid =? 1001); [injection H as <-; cbn; lia|discriminate]. Qed.
Example lastlog_session_example : open_session e0 false [lit "showfailed"; lit "unlimited"; lit "nodate"] =
  (PAM_SUCCESS, [Lock false 1001; Unlock 1001; Say (LastLogin None (Some (lit "far")) (Some (lit "tty1"))); Sleep; Lock true 1001; SetLimit true; Write 1001 (mkRec 86400000 (lit "pts/3") (lit "near")); SetLimit false; Unlock 1001;
                 Wtmp (lit "pts/3") (lit "eva") (lit "near"); Say (LastFailed None None (Some (lit "tty2"))); Say (Failures 1)]) /\
  open_session e0 true [lit "showfailed"; lit "noupdate"] = (PAM_SUCCESS, [Lock false 1001; Unlock 1001]) /\ close_session e0 false [] = (PAM_SUCCESS, [Wtmp (lit "pts/3") [] []]).
Proof. vm_compute. auto. Qed.
Example lastlog_auth_example : fst (auth e0 []) = PAM_AUTH_ERR /\ fst (auth e0 [lit "inactive=999"]) = PAM_SUCCESS /\ fst (auth e0 [lit "inactive=998"]) = PAM_AUTH_ERR /\ fst (auth e0 [lit "inactive=2000 days"; lit "inactive=0"]) = PAM_SUCCESS.
Proof. vm_compute. auto. Qed.
Definition later (E : env) (now : Z) (r : record) : env := mkEnv (e_user E) (e_pw E) None (fun _ => Opened) true true true (fun _ => true) (fun _ => true) (fun _ => Some r) (fun _ => true) (fun _ => true) true (fun _ => PAM_SUCCESS) now
  (Some (lit "near")) (Some (lit "/dev/pts/3")) None true true true Opened [].
Example lastlog_roundtrip_example : auth (later e0 86400005 (mkRec 86400000 (lit "pts/3") (lit "near"))) [lit "inactive=1"] = (PAM_SUCCESS, [Lock false 1001; Unlock 1001]).
Proof. vm_compute. reflexivity. Qed.

(** ** Findings *)
Definition at2038 : env := later e0 (2 ^ 31) (mkRec 1000 [] []).
(** From 2038 on, who has logged in a second ago is locked out: ll_time is a 32-bit integer (pam_lastlog.c:406, 301). *)
Theorem lastlog_2038_refuted : exists E args u r E' args', In (Write u r) (snd (open_session E false args)) /\ e_pw E' (lit "eva") = Some u /\ e_user E' = Some (lit "eva") /\ e_read E' u = Some r /\ e_now E' = e_now E + 1 /\ fst (auth E' args') = PAM_AUTH_ERR.
Proof.
  exists at2038, [], 1001, (mkRec (- 2 ^ 31) (lit "pts/3") (lit "near")), (later e0 (2 ^ 31 + 1) (mkRec (- 2 ^ 31) (lit "pts/3") (lit "near"))), []. split; [|vm_compute; auto 10].
  vm_compute. right; right; right; right. left. reflexivity.
Qed.
(** The option silent does not keep the failures quiet, the flag PAM_SILENT does (pam_lastlog.c:159-162). *)
Theorem lastlog_silent_refuted : exists E args n, has "silent" args /\ In (Say (Failures n)) (snd (open_session E false args)).
Proof. exists e0, [lit "silent"; lit "showfailed"], 1%nat. split; [left; reflexivity|]. vm_compute. right; right; right; right; right; right; right. right. left. reflexivity. Qed.
(** The failures of another user, with the same first 32 characters, are told. *)
Definition long_name (c : string) : cstr := (repeat "u"%char 32 ++ lit c)%list.
Definition e_long : env := mkEnv (Some (long_name "1")) (fun _ => Some 7) (Some (lit "5 ")) (fun _ => Opened) true true true (fun _ => true) (fun _ => true) (fun _ => Some (mkRec 5 [] [])) (fun _ => true) (fun _ => true) true (fun _ => PAM_SUCCESS) 100 None None None true true true
  Opened [(firstn 32 (long_name "2"), mkRec 3 [] [])].
Theorem lastlog_other_user_refuted : exists E args user other n, e_user E = Some user /\ user <> other /\ e_failed E = [(firstn 32 other, mkRec 3 [] [])] /\ In (Say (Failures (S n))) (snd (open_session E false args)).
Proof. exists e_long, [lit "showfailed"], (long_name "1"), (long_name "2"), 0%nat. split; [reflexivity|]. split; [discriminate|]. split; [reflexivity|]. vm_compute. right. left. reflexivity. Qed.
(** Failures before the last login are told to users above LASTLOG_UID_MAX. *)
Theorem lastlog_since_refuted : exists E args user uid r t n, user_id E user uid /\ e_read E uid = Some r /\ (forall f, In f (e_failed E) -> r_time (snd f) = t) /\ t < r_time r /\ In (Say (Failures (S n))) (snd (open_session E false args)).
Proof.
  exists e_long, [lit "showfailed"], (long_name "1"), 7, (mkRec 5 [] []), 3, 0%nat. split; [split; [reflexivity|split; [discriminate|reflexivity]]|]. split; [reflexivity|]. split; [intros f [<-|[]]; reflexivity|]. split; [reflexivity|]. vm_compute. right. left. reflexivity.
Qed.
(** wtmp has the login although the session fails. *)
Theorem lastlog_wtmp_refuted : exists E args l u h, fst (open_session E false args) <> PAM_SUCCESS /\ In (Wtmp l u h) (snd (open_session E false args)).
Proof.
  exists (mkEnv (Some (lit "eva")) (fun _ => Some 7) None (fun _ => Opened) true true true (fun _ => true) (fun _ => true) (fun _ => None) (fun _ => true) (fun _ => true) true (fun _ => PAM_SUCCESS) 100 None None None true true false Opened []), [], [], (lit "eva"), [].
  split; [vm_compute; discriminate|]. vm_compute. right; right; right; right. left. reflexivity.
Qed.
(** The entries of wtmp for the beginning and the end of a session can name different lines. *)
Theorem lastlog_line_refuted : exists E args l u h l', In (Wtmp l u h) (snd (open_session E false args)) /\ In (Wtmp l' [] []) (snd (close_session E false args)) /\ firstn 32 l <> firstn 32 l'.
Proof.
  exists (mkEnv (Some (lit "eva")) (fun _ => Some 7) None (fun _ => Opened) true true true (fun _ => true) (fun _ => true) (fun _ => None) (fun _ => true) (fun _ => true) true (fun _ => PAM_SUCCESS) 100 None (Some (repeat "t"%char 32)) None true true true Opened []), [],
    (repeat "t"%char 31), (lit "eva"), [], (repeat "t"%char 32). split; [vm_compute; right; right; right; right; right; left; reflexivity|]. split; [left; reflexivity|discriminate].
Qed.
Print Assumptions lastlog_inactive.
Print Assumptions lastlog_recorded.
Print Assumptions lastlog_success.
Print Assumptions lastlog_wtmp.
Print Assumptions lastlog_limit.
Print Assumptions lastlog_last_login.
Print Assumptions lastlog_told.
Print Assumptions lastlog_failures.
Print Assumptions lastlog_result.
Print Assumptions lastlog_closed.
Print Assumptions lastlog_roundtrip.
Print Assumptions lastlog_2038_refuted.
Print Assumptions lastlog_silent_refuted.
Print Assumptions lastlog_other_user_refuted.
Print Assumptions lastlog_since_refuted.
Print Assumptions lastlog_wtmp_refuted.
Print Assumptions lastlog_line_refuted.
