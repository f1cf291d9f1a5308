(** C58: what pam_timestamp looks at: directories, names of timestamp files, ages and logins. *)
From Coq Require Import String Ascii List Arith NArith ZArith Bool Lia.
From Verif Require Import Base Num_Model Str_Model Str_Facts Accessword_Props Timestamp_Model.
Import ListNotations.
Local Open Scope Z_scope.

(** * The names *)
(** The directory: the last option timestampdir=, or the default. *)
Inductive directory : list cstr -> cstr -> Prop :=
| DirDefault : forall args, (forall a, In a args -> ~ exists d, a = (lit "timestampdir=" ++ d)%list) -> directory args (lit "/var/run/pam_timestamp")
| DirOption : forall l d r, (forall a, In a r -> ~ exists d, a = (lit "timestampdir=" ++ d)%list) -> directory (l ++ (lit "timestampdir=" ++ d)%list :: r) d.
(** Who asks: PAM_RUSER unless empty, else the real user. *)
Inductive requester (e : env) : cstr -> Prop :=
| ReqItem : forall r, e_ruser e = Some r -> r <> [] -> r <> lit "." -> r <> lit ".." -> ~ In "/"%char r -> requester e r
| ReqOwn : forall r, (e_ruser e = None \/ e_ruser e = Some []) -> e_own e = Some r -> r <> [] -> requester e r.
(** The terminal: PAM_TTY, the terminals of the standard descriptors, "unknown": the first that is not empty. *)
Inductive first_of : list (option cstr) -> cstr -> Prop :=
| FirstHere : forall t l, t <> [] -> first_of (Some t :: l) t
| FirstLater : forall o t l, (o = None \/ o = Some []) -> first_of l t -> first_of (o :: l) t.
Inductive base : cstr -> cstr -> Prop :=
| BasePlain : forall t, ~ In "/"%char t -> base t t
| BaseDev : forall x t, ~ In "/"%char t -> (exists y, (x ++ "/"%char :: t)%list = (lit "/dev/" ++ y)%list) -> base (x ++ "/"%char :: t) t.
Definition terminal (e : env) (t : cstr) : Prop :=
  exists n, first_of [e_tty e; e_tty0 e; e_tty1 e; e_tty2 e; Some (lit "unknown")] n /\ base n t /\ t <> [] /\ t <> lit "." /\ t <> lit "..".
(** The name of the file for a requester, a terminal and a user to become. *)
Inductive path_for (d r t : cstr) : cstr -> cstr -> Prop :=
| PathSelf : path_for d r t r (d ++ lit "/" ++ r ++ lit "/" ++ t)
| PathOther : forall u, u <> r -> path_for d r t u (d ++ lit "/" ++ r ++ lit "/" ++ t ++ lit ":" ++ u).
(** A directory nobody but root can write to. *)
Definition safe (s : stat) : Prop := st_kind s = KDir /\ st_uid s = 0 /\ st_gid s = 0 /\ Z.testbit (st_perm s) 4 = false /\ Z.testbit (st_perm s) 1 = false.
(** The names of the directories on the way: the parts of the name that end in a slash, and the whole. *)
Definition on_the_way (d p : cstr) : Prop := p <> [] /\ exists r, d = (p ++ r)%list /\ (r = [] \/ exists p', p = (p' ++ lit "/")%list).
(** All of them are safe or missing, and the first is not missing. *)
Definition way_safe (lstat : cstr -> lres) (d : cstr) : Prop :=
  (forall p, on_the_way d p -> lstat p = LNoent \/ exists s, lstat p = LStat s /\ safe s) /\
  (forall p, on_the_way d p -> (forall q, on_the_way d q -> (length p <= length q)%nat) -> lstat p <> LNoent).
(** The name of the timestamp file. *)
Inductive named (e : env) (r u p : cstr) : Prop :=
| Named : forall d t, directory (e_args e) d -> way_safe (e_lstat e) d -> requester e r -> terminal e t -> e_user e = Some u -> u <> [] -> path_for d r t u p -> Z.of_nat (length p) < 4096 -> named e r u p.

Lemma fold_dir : forall args d, fold_left tdir_arg args d = d /\ (forall a, In a args -> ~ exists d, a = (lit "timestampdir=" ++ d)%list) \/
  exists l v r, args = (l ++ (lit "timestampdir=" ++ v)%list :: r)%list /\ (forall a, In a r -> ~ exists d, a = (lit "timestampdir=" ++ d)%list) /\ fold_left tdir_arg args d = v.
Proof.
  induction args as [|a args IH] using rev_ind; intro d; [left; split; [reflexivity|intros a []]|]. rewrite fold_left_app. cbn [fold_left]. unfold tdir_arg at 1 3.
  destruct (is_prefix (lit "timestampdir=") a) eqn:P.
  - right. apply is_prefix_spec in P. destruct P as (v & ->). exists args, v, []. split; [reflexivity|]. split; [intros a []|reflexivity].
  - assert (NP : ~ exists d, a = (lit "timestampdir=" ++ d)%list) by (intros X; apply is_prefix_spec in X; congruence).
    destruct (IH d) as [[E N]|(l & v & r & E & N & F)].
    + left. split; [exact E|]. intros b I. apply in_app_iff in I. destruct I as [I|[<-|[]]]; [apply N; exact I|exact NP].
    + right. exists l, v, (r ++ [a])%list. split; [rewrite E, <- app_assoc; reflexivity|]. split; [|exact F]. intros b I. apply in_app_iff in I. destruct I as [I|[<-|[]]]; [apply N; exact I|exact NP].
Qed.
Lemma dir_model : forall args, directory args (fold_left tdir_arg args TIMESTAMPDIR).
Proof.
  intro args. destruct (fold_dir args TIMESTAMPDIR) as [[E N]|(l & v & r & E & N & F)]; [rewrite E; apply DirDefault; exact N|]. rewrite F, E. apply DirOption. exact N.
Qed.
Lemma dir_unique : forall args d, directory args d -> fold_left tdir_arg args TIMESTAMPDIR = d.
Proof.
  assert (K : forall r d, (forall a, In a r -> ~ exists d, a = (lit "timestampdir=" ++ d)%list) -> fold_left tdir_arg r d = d).
  { induction r as [|a r IH]; intros d N; [reflexivity|]. cbn [fold_left]. unfold tdir_arg at 2. destruct (is_prefix (lit "timestampdir=") a) eqn:P; [apply is_prefix_spec in P; destruct (N a (or_introl eq_refl) P)|]. apply IH. intros b I. apply N. right. exact I. }
  intros args d H. destruct H as [args N|l d r N]; [apply K; exact N|]. rewrite fold_left_app. cbn [fold_left]. rewrite K by exact N. unfold tdir_arg. rewrite (proj2 (is_prefix_spec _ _)) by (exists d; reflexivity). reflexivity.
Qed.
Lemma strchr_in : forall c s, (exists r, strchr c s = Some r) <-> In c s.
Proof.
  intros c s. induction s as [|x s IH]; cbn [strchr In]; [split; [intros [r E]; discriminate|intros []]|].
  destruct (Ascii.eqb_spec x c) as [->|N]; [split; [auto|intros _; eexists; reflexivity]|]. rewrite IH. split; [auto|intros [E|I]; [destruct (N E)|exact I]].
Qed.
Lemma strchr_none : forall c s, strchr c s = None <-> ~ In c s.
Proof.
  intros c s. rewrite <- strchr_in. destruct (strchr c s) as [r|]; split; intros H; try discriminate; [destruct H; exists r; reflexivity|intros [r E]; discriminate|reflexivity].
Qed.
Lemma slash_test : forall s, (match strchr "/"%char s with Some _ => true | None => false end) = true <-> In "/"%char s.
Proof. intro s. rewrite <- strchr_in. destruct (strchr "/"%char s) as [r|]; split; intros H; try discriminate; try (exists r; reflexivity); [reflexivity|destruct H as [r E]; discriminate]. Qed.
Lemma after_slash_spec : forall s, ~ In "/"%char (after_slash s) /\ (s = after_slash s \/ exists x, s = (x ++ "/"%char :: after_slash s)%list).
Proof.
  induction s as [|c s [IH1 IH2]]; cbn [after_slash]; [split; [intros []|auto]|]. destruct (strchr "/"%char s) as [r|] eqn:E.
  - split; [exact IH1|]. right. destruct IH2 as [IH2|(x & IH2)]; [|exists (c :: x); cbn; rewrite <- IH2; reflexivity].
    exfalso. apply IH1. rewrite <- IH2. apply strchr_in. exists r. exact E.
  - apply strchr_none in E. destruct (Ascii.eqb_spec c "/"%char) as [->|N]; [split; [exact E|right; exists []; reflexivity]|]. split; [intros [X|X]; [exact (N X)|exact (E X)]|auto].
Qed.
Lemma last_slash_unique : forall x t y u, ~ In "/"%char t -> ~ In "/"%char u -> (x ++ "/"%char :: t)%list = (y ++ "/"%char :: u)%list -> t = u.
Proof.
  induction x as [|a x IH]; intros t [|b y] u NT NU E; cbn in E.
  - injection E as E. exact E.
  - injection E as _ E2. exfalso. apply NT. rewrite E2. apply in_app_iff. right. left. reflexivity.
  - injection E as _ E2. exfalso. apply NU. rewrite <- E2. apply in_app_iff. right. left. reflexivity.
  - injection E as _ E2. apply (IH t y u NT NU E2).
Qed.
Lemma after_slash_of : forall x t, ~ In "/"%char t -> after_slash (x ++ "/"%char :: t) = t /\ after_slash t = t.
Proof.
  intros x t N. split.
  - destruct (after_slash_spec (x ++ "/"%char :: t)) as [A [B|(y & B)]].
    + exfalso. apply A. rewrite <- B. apply in_app_iff. right. left. reflexivity.
    + symmetry. apply (last_slash_unique x t y _ N A B).
  - destruct (after_slash_spec t) as [A [B|(y & B)]]; [auto|]. exfalso. apply N. rewrite B. apply in_app_iff. right. left. reflexivity.
Qed.
Lemma check_tty_spec : forall n t, check_tty (Some n) = Some t <-> n <> [] /\ base n t /\ t <> [] /\ t <> lit "." /\ t <> lit "..".
Proof.
  intros n t. unfold check_tty. destruct n as [|c n]; [split; [discriminate|intros [N _]; destruct (N eq_refl)]|]. set (s := c :: n). assert (NE : s <> []) by discriminate. clearbody s.
  destruct (after_slash_spec s) as [A B]. split.
  - intros H. destruct (negb _) eqn:E; [discriminate|]. apply negb_false_iff in E. destruct (_ || _) eqn:F; [discriminate|]. apply orb_false_iff in F. destruct F as [F F3]. apply orb_false_iff in F. destruct F as [F1 F2]. injection H as <-.
    split; [exact NE|]. split; [|split; [destruct (after_slash s); [discriminate|discriminate]|split; intros X; rewrite X in *; discriminate]].
    destruct (strchr "/"%char s) as [r|] eqn:S1.
    + assert (I : In "/"%char s) by (apply strchr_in; exists r; exact S1). destruct B as [B|(x & B)]; [exfalso; apply A; rewrite <- B; exact I|]. apply is_prefix_spec in E. rewrite B at 1. apply BaseDev; [exact A|]. rewrite <- B. exact E.
    + apply strchr_none in S1. rewrite (proj2 (after_slash_of [] s S1)). apply BasePlain. exact S1.
  - intros (_ & H & N1 & N2 & N3).
    assert (Q : after_slash s = t /\ match strchr "/"%char s with Some _ => is_prefix (lit "/dev/") s | None => true end = true).
    { destruct H as [s N|x t N P].
      - split; [apply (after_slash_of [] s N)|]. rewrite (proj2 (strchr_none _ _) N). reflexivity.
      - split; [apply (after_slash_of x t N)|]. destruct (strchr _ _); [apply is_prefix_spec; exact P|reflexivity]. }
    destruct Q as [Q1 Q2]. rewrite Q2. cbn [negb]. rewrite Q1. destruct t as [|y t]; [destruct (N1 eq_refl)|].
    destruct (streq (y :: t) (lit ".")) eqn:E1; [apply streq_eq in E1; destruct (N2 E1)|]. destruct (streq (y :: t) (lit "..")) eqn:E2; [apply streq_eq in E2; destruct (N3 E2)|]. reflexivity.
Qed.
Lemma blank_cases : forall o, (blank o = true /\ (o = None \/ o = Some [])) \/ (blank o = false /\ exists t, o = Some t /\ t <> []).
Proof. intros [[|c t]|]; [left|right|left]; cbn; auto. split; [reflexivity|]. exists (c :: t). split; [reflexivity|discriminate]. Qed.
Lemma tty_first : forall e, exists n, tty_of e = Some n /\ first_of [e_tty e; e_tty0 e; e_tty1 e; e_tty2 e; Some (lit "unknown")] n.
Proof.
  intro e. unfold tty_of.
  destruct (blank_cases (e_tty e)) as [[-> B]|[-> (t & E & N)]]; cbn [negb]; [|exists t; split; [exact E|rewrite E; apply FirstHere; exact N]].
  destruct (blank_cases (e_tty0 e)) as [[-> B0]|[-> (t & E & N)]]; cbn [negb]; [|exists t; split; [exact E|apply FirstLater; [exact B|]; rewrite E; apply FirstHere; exact N]].
  destruct (blank_cases (e_tty1 e)) as [[-> B1]|[-> (t & E & N)]]; cbn [negb]; [|exists t; split; [exact E|do 2 (apply FirstLater; [assumption|]); rewrite E; apply FirstHere; exact N]].
  destruct (blank_cases (e_tty2 e)) as [[-> B2]|[-> (t & E & N)]]; cbn [negb]; [|exists t; split; [exact E|do 3 (apply FirstLater; [assumption|]); rewrite E; apply FirstHere; exact N]].
  exists (lit "unknown"). split; [reflexivity|]. do 4 (apply FirstLater; [assumption|]). apply FirstHere. discriminate.
Qed.
Lemma first_unique : forall l n, first_of l n -> forall m, first_of l m -> n = m.
Proof.
  induction 1 as [t l N|o t l O F IH]; intros m G; inversion G; subst; try reflexivity; try (apply IH; assumption).
  - destruct H1 as [H1|H1]; [discriminate|injection H1 as ->; destruct (N eq_refl)].
  - destruct O as [O|O]; [discriminate|injection O as ->; contradiction].
Qed.
Lemma terminal_model : forall e t, check_tty (tty_of e) = Some t <-> terminal e t.
Proof.
  intros e t. destruct (tty_first e) as (n & E & F). rewrite E, check_tty_spec. unfold terminal. split.
  - intros (_ & B & R). exists n. auto.
  - intros (m & G & B & R). rewrite (first_unique _ _ F _ G). split; [|auto]. clear -G. remember [e_tty e; e_tty0 e; e_tty1 e; e_tty2 e; Some (lit "unknown")] as l eqn:L. clear L. induction G; assumption.
Qed.
Lemma ruser_model : forall e r, (get_ruser e = Some r /\ r <> []) <-> (requester e r /\ Z.of_nat (length r) < 4096).
Proof.
  intros e r. unfold get_ruser. assert (TWO : forall x, (if BUFLEN <=? Z.of_nat (length x) then None else Some x) = Some r <-> x = r /\ Z.of_nat (length r) < 4096).
  { intro x. unfold BUFLEN. destruct (Z.leb_spec 4096 (Z.of_nat (length x))) as [L|L]; split; [discriminate|intros [-> X]; lia|intros X; injection X as ->; auto|intros [-> _]; reflexivity]. }
  destruct (e_ruser e) as [[|c q]|] eqn:R.
  - destruct (e_own e) as [o|] eqn:O.
    + rewrite TWO. split; [intros [[-> L] N]; split; [apply ReqOwn; auto|exact L]|]. intros [[x E N _ _ _|x _ E N] L]; [rewrite R in E; injection E as <-; destruct (N eq_refl)|]. rewrite O in E. injection E as ->. auto.
    + split; [intros [E N]; cbn in E; injection E as <-; destruct (N eq_refl)|]. intros [[x E N _ _ _|x _ E N] L]; [rewrite R in E; injection E as <-; destruct (N eq_refl)|congruence].
  - set (q' := c :: q) in *. assert (NQ : q' <> []) by discriminate. clearbody q'. destruct (_ || _) eqn:B.
    + split; [intros [X _]; discriminate|]. intros [[x E N N1 N2 N3|x E _ _] L]; [|rewrite R in E; destruct E as [E|E]; [discriminate|injection E as ->; destruct (NQ eq_refl)]].
      rewrite R in E. injection E as <-. apply orb_true_iff in B. destruct B as [B|B]; [apply orb_true_iff in B; destruct B as [B|B]; apply streq_eq in B; contradiction|]. apply slash_test in B. contradiction.
    + apply orb_false_iff in B. destruct B as [B B3]. apply orb_false_iff in B. destruct B as [B1 B2]. rewrite TWO. split.
      * intros [[-> L] N]. split; [|exact L]. apply ReqItem; [exact R|exact N|intros ->; discriminate|intros ->; discriminate|]. intros I. apply slash_test in I. congruence.
      * intros [[x E N N1 N2 N3|x E _ _] L]; [rewrite R in E; injection E as ->; auto|]. rewrite R in E. destruct E as [E|E]; [discriminate|injection E as ->; destruct (NQ eq_refl)].
  - destruct (e_own e) as [o|] eqn:O.
    + rewrite TWO. split; [intros [[-> L] N]; split; [apply ReqOwn; auto|exact L]|]. intros [[x E N _ _ _|x _ E N] L]; [congruence|]. rewrite O in E. injection E as ->. auto.
    + split; [intros [X _]; discriminate|]. intros [[x E N _ _ _|x _ E N] L]; congruence.
Qed.

(** ** The directories *)
Lemma dir_bad_safe : forall s, dir_bad s = false <-> safe s.
Proof.
  intro s. unfold dir_bad, safe. assert (P : Z.land (st_perm s) 18 = 0 <-> Z.testbit (st_perm s) 4 = false /\ Z.testbit (st_perm s) 1 = false).
  { split.
    - intros H. split; [assert (X : Z.testbit (Z.land (st_perm s) 18) 4 = false) by (rewrite H; reflexivity)|assert (X : Z.testbit (Z.land (st_perm s) 18) 1 = false) by (rewrite H; reflexivity)]; rewrite Z.land_spec in X; cbn in X; rewrite andb_true_r in X; exact X.
    - intros [H4 H1]. apply Z.bits_inj'. intros n N. rewrite Z.land_spec, Z.bits_0. destruct (Z.eq_dec n 4) as [->|N4]; [rewrite H4; reflexivity|]. destruct (Z.eq_dec n 1) as [->|N1]; [rewrite H1; reflexivity|].
      apply andb_false_iff. right. destruct (Z.ltb_spec n 5) as [L|L]; [assert (C : n = 0 \/ n = 2 \/ n = 3) by lia; destruct C as [->|[->| ->]]; reflexivity|]. apply Z.bits_above_log2; [lia|]. cbn. lia. }
  destruct (st_kind s); cbn [negb orb]; (split; [|intros (K & U & G & Q); try discriminate K]); try (intros H; discriminate H).
  - intros H. apply orb_false_iff in H. destruct H as [H H3]. apply orb_false_iff in H. destruct H as [H1 H2]. apply negb_false_iff, Z.eqb_eq in H1, H2, H3. tauto.
  - rewrite U, G, (proj2 P Q). reflexivity.
Qed.
(** The loop: what it accepts. [done] has been looked at, the last information being [st]. *)
Lemma dir_loop_ok : forall lstat rest i done st, i + Z.of_nat (length rest) < 4096 -> i = Z.of_nat (length done) -> (forall s, st = Some s -> safe s) ->
  (dir_loop lstat i done rest st = Ok 0 <->
   (forall p, p <> [] -> (exists r, rest = (p ++ r)%list /\ (r = [] \/ exists p', p = (p' ++ lit "/")%list)) -> lstat (done ++ p)%list = LNoent \/ exists s, lstat (done ++ p)%list = LStat s /\ safe s) /\
   (st = None -> forall p, p <> [] -> (exists r, rest = (p ++ r)%list /\ (r = [] \/ exists p', p = (p' ++ lit "/")%list)) ->
      (forall q, q <> [] -> (exists r, rest = (q ++ r)%list /\ (r = [] \/ exists q', q = (q' ++ lit "/")%list)) -> (length p <= length q)%nat) -> lstat (done ++ p)%list <> LNoent)).
Proof.
  intros lstat. induction rest as [|c rest IH]; intros i done st B I S0.
  { cbn [dir_loop]. split; [|reflexivity]. intros _. split; [intros p N (r & E & _)|intros _ p N (r & E & _)]; destruct p; try discriminate; destruct (N eq_refl). }
  assert (CP : forall p, p <> [] -> (exists r, (c :: rest)%list = (p ++ r)%list /\ (r = [] \/ exists p', p = (p' ++ lit "/")%list)) ->
    (p = [c] /\ (c = "/"%char \/ rest = [])) \/ exists q, p = c :: q /\ q <> [] /\ exists r, rest = (q ++ r)%list /\ (r = [] \/ exists p', q = (p' ++ lit "/")%list)).
  { intros p N (r & E & D). destruct p as [|x q]; [destruct (N eq_refl)|]. cbn in E. injection E as <- E. destruct q as [|y q].
    - left. split; [reflexivity|]. destruct D as [->|(p' & D)]; [right; exact E|]. left. destruct p' as [|z p']; [injection D as D; exact D|]. injection D as _ D. destruct p'; discriminate.
    - right. exists (y :: q). split; [reflexivity|]. split; [discriminate|]. exists r. split; [exact E|]. destruct D as [D|(p' & D)]; [left; exact D|right]. destruct p' as [|z p']; [discriminate|]. injection D as _ D. exists p'. exact D. }
  assert (PC : forall q, (exists r, rest = (q ++ r)%list /\ (r = [] \/ exists p', q = (p' ++ lit "/")%list)) -> exists r, (c :: rest)%list = ((c :: q) ++ r)%list /\ (r = [] \/ exists p', c :: q = (p' ++ lit "/")%list)).
  { intros q (r & E & D). exists r. split; [rewrite E; reflexivity|]. destruct D as [D|(p' & D)]; [left; exact D|right; exists (c :: p'); rewrite D; reflexivity]. }
  cbn [length] in B. cbn [dir_loop]. unfold BUFLEN. destruct (Z.leb_spec 4096 i) as [L|_]; [lia|].
  assert (BI : i + 1 + Z.of_nat (length rest) < 4096) by lia. assert (II : i + 1 = Z.of_nat (length (done ++ [c])%list)) by (rewrite app_length; cbn [length]; lia).
  destruct (Ascii.eqb c "/"%char || match rest with [] => true | _ => false end) eqn:T.
  - assert (TT : c = "/"%char \/ rest = []) by (apply orb_true_iff in T; destruct T as [T|T]; [left; apply Ascii.eqb_eq; exact T|right; destruct rest; [reflexivity|discriminate]]).
    destruct (Z.eqb_spec i (4096 - 1)) as [X|_]; [lia|].
    assert (ONE : exists r, (c :: rest)%list = ([c] ++ r)%list /\ (r = [] \/ exists p', [c] = (p' ++ lit "/")%list)) by (exists rest; split; [reflexivity|]; destruct TT as [->|TT]; [right; exists []; reflexivity|left; exact TT]).
    assert (NC : [c] <> []) by discriminate.
    assert (SHORT : forall q, q <> [] -> (exists r, (c :: rest)%list = (q ++ r)%list /\ (r = [] \/ exists q', q = (q' ++ lit "/")%list)) -> (length [c] <= length q)%nat) by (intros q Q _; destruct q; [destruct (Q eq_refl)|cbn; lia]).
    assert (REST : forall s, safe s -> (dir_loop lstat (i + 1) (done ++ [c]) rest (Some s) = Ok 0 <->
      (forall q, q <> [] -> (exists r, rest = (q ++ r)%list /\ (r = [] \/ exists p', q = (p' ++ lit "/")%list)) -> lstat (done ++ c :: q)%list = LNoent \/ exists s, lstat (done ++ c :: q)%list = LStat s /\ safe s))).
    { intros s SS. rewrite (IH (i + 1) (done ++ [c])%list (Some s) BI II) by (intros s' E; injection E as <-; exact SS). split.
      - intros [H _] q N P. specialize (H q N P). rewrite <- app_assoc in H. exact H.
      - intros H. split; [|discriminate]. intros q N P. rewrite <- app_assoc. exact (H q N P). }
    destruct (lstat (done ++ [c])%list) as [| |s] eqn:LS.
    + destruct st as [s|].
      * specialize (S0 s eq_refl). rewrite (proj2 (dir_bad_safe s) S0). rewrite (REST s S0). split.
        -- intros H. split; [|discriminate]. intros p N P. destruct (CP p N P) as [[-> _]|(q & -> & Q & R)]; [left; exact LS|exact (H q Q R)].
        -- intros [H _] q Q R. apply H; [discriminate|apply PC; exact R].
      * split; [discriminate|]. intros [_ H]. exfalso. exact (H eq_refl [c] NC ONE SHORT LS).
    + split; [discriminate|]. intros [H _]. destruct (H [c] NC ONE) as [H'|(s & H' & _)]; congruence.
    + destruct (dir_bad s) eqn:DB.
      * split; [discriminate|]. intros [H _]. destruct (H [c] NC ONE) as [H'|(s' & H' & SS)]; [congruence|]. apply dir_bad_safe in SS. congruence.
      * apply dir_bad_safe in DB. rewrite (REST s DB). split.
        -- intros H. split.
           ++ intros p N P. destruct (CP p N P) as [[-> _]|(q & -> & Q & R)]; [right; exists s; auto|exact (H q Q R)].
           ++ intros _ p N P M. specialize (M [c] NC ONE). destruct (CP p N P) as [[-> _]|(q & -> & Q & R)]; [congruence|]. destruct q; [destruct (Q eq_refl)|cbn in M; lia].
        -- intros [H _] q Q R. apply H; [discriminate|apply PC; exact R].
  - apply orb_false_iff in T. destruct T as [T1 T2]. assert (NT : ~ (c = "/"%char \/ rest = [])) by (intros [->| ->]; discriminate).
    rewrite (IH (i + 1) (done ++ [c])%list st BI II S0). split; intros [H1 H2]; split.
    + intros p N P. destruct (CP p N P) as [[_ X]|(q & -> & Q & R)]; [contradiction|]. specialize (H1 q Q R). rewrite <- app_assoc in H1. exact H1.
    + intros E p N P M. destruct (CP p N P) as [[_ X]|(q & -> & Q & R)]; [contradiction|]. specialize (H2 E q Q R). rewrite <- app_assoc in H2. apply H2. intros q' Q' R'. specialize (M (c :: q') ltac:(discriminate) (PC q' R')). cbn in M. lia.
    + intros q Q R. rewrite <- app_assoc. apply H1; [discriminate|apply PC; exact R].
    + intros E q Q R M. rewrite <- app_assoc. apply H2; [exact E|discriminate|apply PC; exact R|]. intros p N P. destruct (CP p N P) as [[_ X]|(q' & -> & Q' & R')]; [contradiction|]. specialize (M q' Q' R'). cbn. lia.
Qed.
(** C58: the directory is accepted exactly when each part of its name is a directory that only root can write to, or is
    missing, the first one not. *)
Theorem directory_checked : forall lstat d, d <> [] -> Z.of_nat (length d) < 4096 -> (check_dir_perms lstat d = Ok 0 <-> way_safe lstat d).
Proof.
  intros lstat d N L. unfold check_dir_perms, way_safe, on_the_way. destruct d as [|c d]; [destruct (N eq_refl)|]. rewrite dir_loop_ok by (try discriminate; try reflexivity; lia). cbn [app]. split.
  - intros [H1 H2]. split; [intros p [P Q]; apply H1; assumption|]. intros p [P Q] M. apply H2; try assumption; [reflexivity|]. intros q Q1 Q2. apply M. auto.
  - intros [H1 H2]. split; [intros p P Q; apply H1; auto|]. intros _ p P Q M. apply H2; [auto|]. intros q [Q1 Q2]. apply M; assumption.
Qed.
(** Nothing is ever refused or accepted by accident except when the first part of the name is missing. *)
Theorem missing_directory_refuted : exists lstat d, Z.of_nat (length d) < 4096 /\ check_dir_perms lstat d = UB.
Proof. exists (fun _ => LNoent), (lit "stamps"). split; reflexivity. Qed.

(** ** The name *)
Lemma path_model : forall d r t u p, format_timestamp_name BUFLEN d t r u = Some p <-> path_for d r t u p /\ Z.of_nat (length p) < 4096.
Proof.
  intros d r t u p. unfold format_timestamp_name, BUFLEN. destruct (streq r u) eqn:E.
  - apply streq_eq in E. subst u. destruct (Z.ltb_spec (Z.of_nat (length (d ++ lit "/" ++ r ++ lit "/" ++ t)%list)) 4096) as [L|L].
    + split; [intros H; injection H as <-; split; [constructor|exact L]|]. intros [H _]. inversion H; [reflexivity|contradiction].
    + split; [discriminate|]. intros [H K]. inversion H; subst; [lia|contradiction].
  - assert (N : u <> r) by (intros ->; rewrite streq_refl in E; discriminate). destruct (Z.ltb_spec (Z.of_nat (length (d ++ lit "/" ++ r ++ lit "/" ++ t ++ lit ":" ++ u)%list)) 4096) as [L|L].
    + split; [intros H; injection H as <-; split; [constructor; exact N|exact L]|]. intros [H _]. inversion H; subst; [contradiction|reflexivity].
    + split; [discriminate|]. intros [H K]. inversion H; subst; [contradiction|lia].
Qed.
Lemma path_longer : forall d r t u p, path_for d r t u p -> (length d < length p)%nat /\ (length r < length p)%nat.
Proof. intros d r t u p H. destruct H; rewrite !app_length; cbn; rewrite ?app_length; lia. Qed.
(** C58: the name of the timestamp file. [dir_nonempty]: an empty option timestampdir= is refused. *)
Theorem name_meaning : forall e r u p, named e r u p -> ~ directory (e_args e) [] -> get_timestamp_name e = Ok (Some p) /\ get_ruser e = Some r /\ e_user e = Some u.
Proof.
  intros e r u p [d t D W R T U NU P L] ND. pose proof (path_longer _ _ _ _ _ P) as [LD LR]. assert (Nd : d <> []) by (intros ->; contradiction).
  unfold get_timestamp_name. rewrite (dir_unique _ _ D). rewrite (proj2 (directory_checked _ d Nd ltac:(lia)) W). cbn [bind]. change (0 =? PAM_SUCCESS) with true. cbn [negb].
  rewrite U. destruct u as [|c u]; [destruct (NU eq_refl)|]. destruct (proj2 (ruser_model e r)) as [GR NR]; [split; [exact R|lia]|]. rewrite GR. destruct r as [|x r]; [destruct (NR eq_refl)|].
  rewrite (proj2 (terminal_model e t) T). rewrite (proj2 (path_model d (x :: r) t (c :: u) p)) by auto. auto.
Qed.
Theorem name_only : forall e p, get_timestamp_name e = Ok (Some p) -> exists r u, named e r u p /\ get_ruser e = Some r.
Proof.
  intros e p H. unfold get_timestamp_name in H. pose proof (dir_model (e_args e)) as D. set (d := fold_left tdir_arg (e_args e) TIMESTAMPDIR) in *. clearbody d.
  destruct (check_dir_perms (e_lstat e) d) as [i| |] eqn:C; cbn [bind] in H; try discriminate. destruct (Z.eqb_spec i PAM_SUCCESS) as [->|N]; cbn [negb] in H; [|discriminate].
  destruct (e_user e) as [[|c u]|] eqn:U; try discriminate. destruct (get_ruser e) as [[|x r]|] eqn:R; try discriminate. destruct (check_tty (tty_of e)) as [t|] eqn:T; [|discriminate].
  injection H as H. apply path_model in H. destruct H as [P L]. exists (x :: r), (c :: u). split; [|reflexivity].
  assert (Nd : d <> []) by (intros ->; discriminate C). pose proof (path_longer _ _ _ _ _ P) as [LD _]. apply (directory_checked _ d Nd ltac:(lia)) in C.
  assert (RR : requester e (x :: r)) by (apply (ruser_model e (x :: r)); split; [exact R|discriminate]).
  apply Named with (d := d) (t := t); try assumption; [apply terminal_model; exact T|discriminate].
Qed.

(** When no terminal's name contains a colon, a file belongs to one requester, one terminal and one user only. *)
Theorem names_distinct : forall d r t u r' t' u' p, ~ In "/"%char r -> ~ In "/"%char r' -> ~ In ":"%char t -> ~ In ":"%char t' -> ~ In "/"%char t -> ~ In "/"%char t' ->
  path_for d r t u p -> path_for d r' t' u' p -> r = r' /\ t = t' /\ u = u'.
Proof.
  assert (CUT : forall c (a b x y : cstr), ~ In c a -> ~ In c b -> (a ++ c :: x)%list = (b ++ c :: y)%list -> a = b /\ x = y).
  { intros c a. induction a as [|z a IH]; intros [|w b] x y NA NB E; cbn in E.
    - injection E as E. auto.
    - injection E as E1 _. exfalso. apply NB. left. auto.
    - injection E as E1 _. exfalso. apply NA. left. auto.
    - injection E as E1 E2. subst w. destruct (IH b x y) as [-> ->]; [intros I; apply NA; right; exact I|intros I; apply NB; right; exact I|exact E2|]. auto. }
  intros d r t u r' t' u' p NR NR' CT CT' ST ST' P Q.
  assert (X : exists x, p = (d ++ lit "/" ++ r ++ "/"%char :: x)%list /\ (x = t /\ u = r \/ x = (t ++ ":"%char :: u)%list /\ u <> r)) by (destruct P as [|u N]; eexists; (split; [reflexivity|]); auto).
  assert (Y : exists y, p = (d ++ lit "/" ++ r' ++ "/"%char :: y)%list /\ (y = t' /\ u' = r' \/ y = (t' ++ ":"%char :: u')%list /\ u' <> r')) by (clear P X; destruct Q as [|u' N]; eexists; (split; [reflexivity|]); auto).
  clear P Q. destruct X as (x & -> & X). destruct Y as (y & E & Y). apply app_inv_head in E. apply app_inv_head in E. apply CUT in E; [|exact NR|exact NR']. destruct E as [<- <-]. split; [reflexivity|].
  destruct X as [[-> ->]|[-> NU]], Y as [[E ->]|[E NU']].
  - auto.
  - exfalso. apply CT. rewrite E. apply in_app_iff. right. left. reflexivity.
  - exfalso. apply CT'. rewrite <- E. apply in_app_iff. right. left. reflexivity.
  - apply CUT in E; [|exact CT|exact CT']. destruct E as [-> ->]. auto.
Qed.
(** With colons it may belong to two: who asks for themself on the terminal "x:b" and who asks for b on "x". *)
Definition colon_env (tty user : cstr) : env :=
  mkEnv [] (Some user) (Some (lit "a")) (Some tty) None None None None (fun _ => LStat (mkStat KDir 0 0 493)).
Theorem names_distinct_refuted : exists e e' u u' p, named e (lit "a") u p /\ named e' (lit "a") u' p /\ u <> u'.
Proof.
  assert (W : way_safe (fun _ => LStat (mkStat KDir 0 0 493)) (lit "/var/run/pam_timestamp")).
  { split; [intros p _; right; eexists; split; [reflexivity|]; repeat split; reflexivity|intros; discriminate]. }
  assert (D : directory [] (lit "/var/run/pam_timestamp")) by (apply DirDefault; intros a []).
  exists (colon_env (lit "x:b") (lit "a")), (colon_env (lit "x") (lit "b")), (lit "a"), (lit "b"), (lit "/var/run/pam_timestamp/a/x:b").
  split; [|split; [|discriminate]].
  - apply Named with (d := lit "/var/run/pam_timestamp") (t := lit "x:b"); try assumption; try reflexivity; try discriminate.
    + apply ReqItem; [reflexivity|discriminate|discriminate|discriminate|cbv; intuition discriminate].
    + exists (lit "x:b"). split; [apply FirstHere; discriminate|]. split; [apply BasePlain; cbv; intuition discriminate|]. split; [discriminate|]. split; discriminate.
    + apply (PathSelf (lit "/var/run/pam_timestamp") (lit "a") (lit "x:b")).
  - apply Named with (d := lit "/var/run/pam_timestamp") (t := lit "x"); try assumption; try reflexivity; try discriminate.
    + apply ReqItem; [reflexivity|discriminate|discriminate|discriminate|cbv; intuition discriminate].
    + exists (lit "x"). split; [apply FirstHere; discriminate|]. split; [apply BasePlain; cbv; intuition discriminate|]. split; [discriminate|]. split; discriminate.
    + apply (PathOther (lit "/var/run/pam_timestamp") (lit "a") (lit "x") (lit "b")). discriminate.
Qed.
(** The name of the user is not looked at: it can lead out of the directory. *)
Theorem stays_below_directory_refuted : exists e r u p a b, named e r u p /\ p = (lit "/var/run/pam_timestamp/a/x:" ++ a ++ lit "/../../../../etc/" ++ b)%list /\ ~ In "/"%char b.
Proof.
  exists (colon_env (lit "x") (lit "/../../../../etc/shadow")), (lit "a"), (lit "/../../../../etc/shadow"), (lit "/var/run/pam_timestamp/a/x:/../../../../etc/shadow"), [], (lit "shadow").
  split; [|split; [reflexivity|cbv; intuition discriminate]].
  apply Named with (d := lit "/var/run/pam_timestamp") (t := lit "x"); try reflexivity; try discriminate.
  - apply DirDefault. intros a [].
  - split; [intros p _; right; eexists; split; [reflexivity|]; repeat split; reflexivity|intros; discriminate].
  - apply ReqItem; [reflexivity|discriminate|discriminate|discriminate|cbv; intuition discriminate].
  - exists (lit "x"). split; [apply FirstHere; discriminate|]. split; [apply BasePlain; cbv; intuition discriminate|]. split; [discriminate|]. split; discriminate.
  - apply (PathOther (lit "/var/run/pam_timestamp") (lit "a") (lit "x")). discriminate.
Qed.
Example name_example : let e := mkEnv [lit "debug"; lit "timestampdir=/run/t"] (Some (lit "root")) None (Some []) (Some (lit "joe")) None (Some (lit "/dev/pts/3")) None
    (fun p => if streq p (lit "/run/t") then LNoent else LStat (mkStat KDir 0 0 493)) in
  named e (lit "joe") (lit "root") (lit "/run/t/joe/3:root") /\ ~ directory (e_args e) [].
Proof.
  cbv zeta. assert (D : directory [lit "debug"; lit "timestampdir=/run/t"] (lit "/run/t")) by (apply (DirOption [lit "debug"] (lit "/run/t") []); intros a []).
  split; [|intros X; apply dir_unique in X; apply dir_unique in D; cbn [e_args] in X; rewrite D in X; discriminate].
  apply Named with (d := lit "/run/t") (t := lit "3"); try reflexivity; try discriminate; try exact D.
  - apply directory_checked; [discriminate|reflexivity|reflexivity].
  - apply ReqOwn; [left; reflexivity|reflexivity|discriminate].
  - exists (lit "/dev/pts/3"). split; [apply FirstLater; [right; reflexivity|]; apply FirstLater; [left; reflexivity|]; apply FirstHere; discriminate|].
    split; [apply (BaseDev (lit "/dev/pts") (lit "3")); [cbv; intuition discriminate|exists (lit "pts/3"); reflexivity]|]. split; [discriminate|]. split; discriminate.
  - apply (PathOther (lit "/run/t") (lit "joe") (lit "3") (lit "root")). discriminate.
Qed.
Example distinct_example : path_for (lit "d") (lit "a") (lit "t") (lit "b:c") (lit "d/a/t:b:c") /\ ~ In ":"%char (lit "t").
Proof. split; [apply (PathOther (lit "d") (lit "a") (lit "t") (lit "b:c")); discriminate|cbv; intuition discriminate]. Qed.

(** * Ages *)
(** C58: a stamp is good for [i] seconds, and also when it lies less than twice as far in the future. *)
Definition time_value (t : Z) : Prop := - 2 ^ 62 <= t < 2 ^ 62.
Theorem age_window : forall t now i, time_value t -> time_value now -> time_value i -> timestamp_good t now i = Ok (if (- (2 * i) <? now - t) && (now - t <? i) then 0 else 7).
Proof.
  intros t now i T N I. unfold time_value in *. unfold timestamp_good.
  assert (R : forall z, - 2 ^ 63 <= z < 2 ^ 63 -> lng z = Ok z) by (intros z Z0; unfold lng, LONG_MIN, LONG_MAX; destruct (Z.leb_spec (-9223372036854775808) z); [|lia]; destruct (Z.leb_spec z 9223372036854775807); [reflexivity|lia]).
  change (2 ^ 62) with 4611686018427387904 in *. change (2 ^ 63) with 9223372036854775808 in *.
  destruct (Z.leb_spec t now) as [L|L].
  - rewrite R by lia. cbn [bind]. destruct (Z.ltb_spec (now - t) i) as [A|A]; cbn [bind].
    + destruct (Z.ltb_spec (- (2 * i)) (now - t)) as [B|B]; [reflexivity|lia].
    + destruct (Z.ltb_spec now t) as [X|_]; [lia|]. cbn [bind]. rewrite andb_false_r. reflexivity.
  - cbn [bind]. destruct (Z.ltb_spec now t) as [_|X]; [|lia]. rewrite !R by lia. cbn [bind].
    destruct (Z.ltb_spec (t - now) (2 * i)) as [A|A]; destruct (Z.ltb_spec (- (2 * i)) (now - t)) as [B|B]; try lia; [|reflexivity].
    destruct (Z.ltb_spec (now - t) i) as [C|C]; [reflexivity|lia].
Qed.
Example age_example : time_value 1700000000 /\ timestamp_good 1700000000 1700000299 300 = Ok 0 /\ timestamp_good 1700000000 1700000300 300 = Ok 7 /\ timestamp_good 1700000599 1700000000 300 = Ok 0 /\ timestamp_good 1700000600 1700000000 300 = Ok 7.
Proof. repeat split; reflexivity || (unfold time_value; lia). Qed.
(** So a stamp may come from further in the future than the interval: after the clock is set back it is good for longer. *)
Theorem good_for_interval_only_refuted : exists t now i, 0 < i /\ i < t - now /\ timestamp_good t now i = Ok 0.
Proof. exists 1700000599, 1700000000, 300. repeat split; reflexivity. Qed.
(** A very large timeout is undefined for stamps of the future. *)
Theorem large_timeout_defined_refuted : exists t now i, 0 <= t < 2 ^ 33 /\ 0 <= now < 2 ^ 33 /\ fold_left timeout_arg [lit "timestamp_timeout=9000000000000000000"] 300 = i /\ timestamp_good t now i = UB.
Proof. exists 1700000001, 1700000000, 9000000000000000000. repeat split; vm_compute; congruence. Qed.
(** The last option timestamp_timeout with a plain number sets the interval. *)
Theorem timeout_option : forall l d r i, forallb isdigit d = true -> d <> [] -> hd NUL d <> "0"%char -> value d <= LONG_MAX ->
  (forall a, In a r -> ~ exists x, a = (lit "timestamp_timeout=" ++ x)%list) -> fold_left timeout_arg (l ++ (lit "timestamp_timeout=" ++ d)%list :: r) i = value d.
Proof.
  intros l d r i D N H0 V R. rewrite fold_left_app. cbn [fold_left]. unfold timeout_arg at 2. rewrite (proj2 (is_prefix_spec _ _)) by (exists d; reflexivity).
  change (skipn 18 (lit "timestamp_timeout=" ++ d)%list) with d. rewrite strtol0_number; [|exact D|exact N|exact H0|].
  - revert R. induction r as [|a r IH]; intro R; [reflexivity|]. cbn [fold_left]. unfold timeout_arg at 2. destruct (is_prefix (lit "timestamp_timeout=") a) eqn:P; [apply is_prefix_spec in P; destruct (R a (or_introl eq_refl) P)|]. apply IH. intros b I. apply R. right. exact I.
  - split; [|exact V]. unfold value. assert (G : forall s v, 0 <= v -> forallb isdigit s = true -> 0 <= fold_left (fun v c => v * 10 + digit_val c) s v).
    { induction s as [|c s IH]; intros v V0 F; [exact V0|]. cbn [fold_left forallb] in *. apply andb_true_iff in F. destruct F as [F1 F2]. apply IH; [|exact F2]. unfold isdigit in F1. apply andb_true_iff in F1. destruct F1 as [F1 _]. apply Nat.leb_le in F1. unfold digit_val. lia. }
    apply G; [lia|exact D].
Qed.
Example timeout_example : fold_left timeout_arg [lit "verbose"; lit "timestamp_timeout=600"; lit "debug"] 300 = 600 /\ hd NUL (lit "600") <> "0"%char.
Proof. split; [vm_compute; reflexivity|discriminate]. Qed.
(** A text that ends in a character no number ends in is ignored. *)
Lemma digits_left : forall b c s v n, b <= 16 -> 16 <= hex_val c -> snd (digits_in b (s ++ [c])%list v n) <> [].
Proof.
  intros b c s v n B H. revert v n. induction s as [|x s IH]; intros v n; cbn [app digits_in].
  - destruct (Z.ltb_spec (hex_val c) b); [lia|]. discriminate.
  - destruct (hex_val x <? b); [apply IH|discriminate].
Qed.
Theorem timeout_garbage : forall x c i, 16 <= hex_val c -> timeout_arg i (lit "timestamp_timeout=" ++ x ++ [c])%list = i.
Proof.
  intros x c i H. unfold timeout_arg. rewrite (proj2 (is_prefix_spec _ _)) by (exists (x ++ [c])%list; reflexivity).
  change (skipn 18 (lit "timestamp_timeout=" ++ x ++ [c])%list) with (x ++ [c])%list.
  assert (NE : (x ++ [c])%list <> []) by (destruct x; discriminate).
  assert (G : match strtol0 (x ++ [c])%list with (_, Some []) => False | _ => True end).
  { unfold strtol0. 
    assert (SP : exists s1, (exists neg, sign (skip_spaces (x ++ [c])%list) = (neg, s1)) /\ (s1 = [] \/ exists t, s1 = (t ++ [c])%list)).
    { assert (Q : skip_spaces (x ++ [c])%list = [] \/ exists t, skip_spaces (x ++ [c])%list = (t ++ [c])%list).
      { clear NE. induction x as [|y x IH]; cbn [app skip_spaces]; [destruct (isspace c); [left; reflexivity|right; exists []; reflexivity]|]. destruct (isspace y); [exact IH|right; exists (y :: x); reflexivity]. }
      destruct Q as [->|(t & ->)]; [exists []; split; [eexists; reflexivity|left; reflexivity]|].
      unfold sign. destruct t as [|y t]; cbn [app].
      - destruct (Ascii.eqb c "-"%char); [eexists; split; [eexists; reflexivity|left; reflexivity]|]. destruct (Ascii.eqb c "+"%char); [eexists; split; [eexists; reflexivity|left; reflexivity]|]. eexists; split; [eexists; reflexivity|right; exists []; reflexivity].
      - destruct (Ascii.eqb y "-"%char); [eexists; split; [eexists; reflexivity|right; exists t; reflexivity]|]. destruct (Ascii.eqb y "+"%char); [eexists; split; [eexists; reflexivity|right; exists t; reflexivity]|]. eexists; split; [eexists; reflexivity|right; exists (y :: t); reflexivity]. }
    destruct SP as (s1 & (neg & ->) & [->|(t & ->)]); [exact I|].
    assert (D : forall b s, b <= 16 -> match (let '(v, n, r) := digits_in b (s ++ [c])%list 0 0 in if Nat.eqb n 0 then (0, None) else (clamp LONG_MIN LONG_MAX (if neg then - v else v), Some r)) with (_, Some []) => False | _ => True end).
    { intros b s B. pose proof (digits_left b c s 0 0%nat B H) as L. destruct (digits_in b (s ++ [c])%list 0 0) as [[v n] r]. cbn [snd] in L. destruct (Nat.eqb n 0); [exact I|]. destruct r; [contradiction|exact I]. }
    destruct t as [|z t]; [cbn [app]; destruct (Ascii.eqb c "0"%char); [apply (D 8 [])|apply (D 10 [])]; lia|]. destruct t as [|y t]; [cbn [app]; destruct (Ascii.eqb z "0"%char); [apply (D 8 [z])|apply (D 10 [z])]; lia|].
    change ((z :: y :: t) ++ [c])%list with (z :: y :: (t ++ [c]))%list.
    destruct (t ++ [c])%list as [|d w] eqn:TC; [destruct t; discriminate|]. change (skipn 2 (z :: y :: d :: w)) with (d :: w).
    destruct (Ascii.eqb z "0"%char && Ascii.eqb (tolower y) "x"%char && (hex_val d <? 16)); [rewrite <- TC; apply D; lia|].
    change (z :: y :: d :: w)%list with ([z; y] ++ (d :: w))%list. rewrite <- TC, app_assoc. destruct (Ascii.eqb z "0"%char); apply D; lia. }
  destruct (strtol0 (x ++ [c])%list) as [v [[|r0 r]|]]; [destruct G|reflexivity|]. destruct (x ++ [c])%list; [contradiction|reflexivity].
Qed.
Example garbage_example : 16 <= hex_val "s"%char /\ timeout_arg 300 (lit "timestamp_timeout=600s") = 300.
Proof. split; [vm_compute; discriminate|]. apply (timeout_garbage (lit "600")). vm_compute. discriminate. Qed.
(** Without a number it becomes 0, so that no stamp is good. *)
Theorem empty_timeout_ignored_refuted : fold_left timeout_arg [lit "timestamp_timeout="] 300 = 0 /\ timestamp_good 1700000000 1700000000 0 = Ok 7.
Proof. split; vm_compute; reflexivity. Qed.

(** * Logins *)
(** The records of a user's logins: user processes with the first 32 characters of the name. *)
Definition login (r : cstr) (u : utent) : Prop := ut_proc u = true /\ firstn 32 (ut_user u) = firstn 32 r.
Lemma oldest_spec : forall r utmp o, (forall u, In u utmp -> login r u -> 0 < ut_sec u < 2 ^ 31) -> 0 <= o < 2 ^ 31 ->
  let m := fold_left (older r) utmp o in
  0 <= m < 2 ^ 31 /\ (m = 0 <-> o = 0 /\ forall u, In u utmp -> ~ login r u) /\ (m <> 0 -> m = o \/ exists u, In u utmp /\ login r u /\ ut_sec u = m) /\
  (o <> 0 -> m <= o) /\ (forall u, In u utmp -> login r u -> m <= ut_sec u).
Proof.
  intros r. induction utmp as [|u utmp IH]; intros o P O; cbv zeta; cbn [fold_left].
  - split; [exact O|]. split; [split; [intros ->; split; [reflexivity|intros u []]|intros [-> _]; reflexivity]|]. split; [auto|]. split; [lia|intros u []].
  - assert (P' : forall v, In v utmp -> login r v -> 0 < ut_sec v < 2 ^ 31) by (intros v I; apply P; right; exact I).
    assert (C : (login r u /\ older r o u = (if (o =? 0) || (ut_sec u <? o) then ut_sec u else o) /\ 0 < ut_sec u < 2 ^ 31) \/ (~ login r u /\ older r o u = o)).
    { unfold older. destruct (ut_proc u) eqn:U; cbn [negb]; [|right; split; [intros [X _]; congruence|reflexivity]].
      destruct (streq (firstn 32 r) (firstn 32 (ut_user u))) eqn:E; cbn [negb].
      - apply streq_eq in E. assert (L : login r u) by (split; [exact U|symmetry; exact E]). pose proof (P u (or_introl eq_refl) L) as R. left. split; [exact L|]. split; [|exact R].
        unfold zext. rewrite Z.mod_small by lia. rewrite Z.mod_small by (change (2 ^ 64) with 18446744073709551616; lia). reflexivity.
      - right. split; [|reflexivity]. intros [_ X]. rewrite <- X, streq_refl in E. discriminate. }
    destruct C as [(L & E & R)|(L & E)].
    + set (o' := older r o u) in *. assert (O' : 0 < o' < 2 ^ 31 /\ o' <= ut_sec u /\ (o <> 0 -> o' <= o) /\ (o' = o \/ o' = ut_sec u)).
      { rewrite E. destruct (Z.eqb_spec o 0) as [->|N]; cbn [orb]; [lia|]. destruct (Z.ltb_spec (ut_sec u) o); lia. }
      clearbody o'. destruct O' as (O1 & O2 & O3 & O4). destruct (IH o' P' ltac:(lia)) as (A & B & D & F & G). set (m := fold_left (older r) utmp o') in *. clearbody m.
      split; [exact A|]. assert (NM : m <> 0) by (intros M; apply B in M; lia). split; [split; [contradiction|intros [_ X]; destruct (X u (or_introl eq_refl) L)]|].
      split; [intros _; destruct (D NM) as [->|(v & I & LV & S1)]; [destruct O4 as [->| ->]; [left; reflexivity|right; exists u; split; [left; reflexivity|auto]]|right; exists v; split; [right; exact I|auto]]|].
      split; [intros N; specialize (O3 N); specialize (F ltac:(lia)); lia|]. intros v [<-|I] LV; [specialize (F ltac:(lia)); lia|apply G; assumption].
    + rewrite E. destruct (IH o P' O) as (A & B & D & F & G). set (m := fold_left (older r) utmp o) in *. clearbody m. split; [exact A|].
      split; [rewrite B; split; intros [X Y]; (split; [exact X|]); [intros v [<-|I]; auto|intros v I; apply Y; right; exact I]|].
      split; [intros N; destruct (D N) as [H|(v & I & H)]; [left; exact H|right; exists v; split; [right; exact I|exact H]]|]. split; [exact F|].
      intros v [<-|I] LV; [contradiction|apply G; assumption].
Qed.
(** C58: a stamp counts when the user is logged in and was so when the stamp was made. *)
Theorem login_before_stamp : forall utmp r t, (forall u, In u utmp -> login r u -> 0 < ut_sec u < 2 ^ 31) ->
  check_login_time utmp r t = (if existsb (fun u => ut_proc u && streq (firstn 32 r) (firstn 32 (ut_user u)) && (ut_sec u <=? t)) utmp then 0 else 7).
Proof.
  intros utmp r t P. unfold check_login_time. destruct (oldest_spec r utmp 0 P ltac:(lia)) as (A & B & D & _ & G). set (m := fold_left (older r) utmp 0) in *. clearbody m.
  assert (LT : forall u, ut_proc u && streq (firstn 32 r) (firstn 32 (ut_user u)) = true <-> login r u).
  { intro u. unfold login. rewrite andb_true_iff, streq_eq. intuition congruence. }
  destruct (existsb _ utmp) eqn:E.
  - apply existsb_exists in E. destruct E as (u & I & E). apply andb_true_iff in E. destruct E as [E1 E2]. apply LT in E1. apply Z.leb_le in E2. specialize (G u I E1). destruct (Z.eqb_spec m 0) as [Z0|N]; [apply B in Z0; destruct Z0 as [_ Z0]; destruct (Z0 u I E1)|].
    cbn [orb]. destruct (Z.ltb_spec t m); [lia|reflexivity].
  - destruct (Z.eqb_spec m 0) as [Z0|N]; [reflexivity|]. cbn [orb]. destruct (D N) as [X|(u & I & L & S1)]; [contradiction|]. destruct (Z.ltb_spec t m) as [T|T]; [reflexivity|]. exfalso.
    assert (X : existsb (fun u => ut_proc u && streq (firstn 32 r) (firstn 32 (ut_user u)) && (ut_sec u <=? t)) utmp = true).
    { apply existsb_exists. exists u. split; [exact I|]. apply LT in L. rewrite L. cbn [andb]. apply Z.leb_le. lia. }
    rewrite E in X. discriminate.
Qed.
Example login_example : let u := [mkUt false (lit "joe") 5; mkUt true (lit "ann") 5; mkUt true (lit "joe") 90; mkUt true (lit "joe") 100] in
  (forall x, In x u -> login (lit "joe") x -> 0 < ut_sec x < 2 ^ 31) /\ check_login_time u (lit "joe") 89 = 7 /\ check_login_time u (lit "joe") 90 = 0 /\ check_login_time u (lit "bob") 90 = 7.
Proof. cbv zeta. split; [|repeat split; reflexivity]. intros x I _. cbn in I. destruct I as [<-|[<-|[<-|[<-|[]]]]]; cbn; lia. Qed.
(** From 2038 on the times in utmp are negative numbers, and the check passes for any stamp. *)
Theorem login_after_2038_refuted : exists utmp r t, (forall u, In u utmp -> login r u -> t < ut_sec u mod 2 ^ 32) /\ (exists u, In u utmp /\ login r u) /\ 2 ^ 31 < t /\ check_login_time utmp r t = 0.
Proof.
  exists [mkUt true (lit "joe") (-100)], (lit "joe"), 2147483700. split; [intros u [<-|[]] _; reflexivity|]. split; [eexists; split; [left; reflexivity|split; reflexivity]|]. split; reflexivity.
Qed.
(** Two users whose names agree in 32 characters are one for this check. *)
Theorem own_login_needed_refuted : exists utmp r t, (forall u, In u utmp -> ut_user u <> r) /\ check_login_time utmp r t = 0.
Proof.
  exists [mkUt true (lit "abcdefghijklmnopqrstuvwxyzabcdef") 5], (lit "abcdefghijklmnopqrstuvwxyzabcdefg"), 9. split; [intros u [<-|[]]; discriminate|reflexivity].
Qed.

Print Assumptions directory_checked.
Print Assumptions missing_directory_refuted.
Print Assumptions name_meaning.
Print Assumptions name_only.
Print Assumptions names_distinct.
Print Assumptions names_distinct_refuted.
Print Assumptions stays_below_directory_refuted.
Print Assumptions age_window.
Print Assumptions good_for_interval_only_refuted.
Print Assumptions large_timeout_defined_refuted.
Print Assumptions timeout_option.
Print Assumptions timeout_garbage.
Print Assumptions empty_timeout_ignored_refuted.
Print Assumptions login_before_stamp.
Print Assumptions login_after_2038_refuted.
Print Assumptions own_login_needed_refuted.
