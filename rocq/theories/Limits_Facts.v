(** What lines of limits.conf say, stated without the code, and how the model reads them. *)
From Coq Require Import String Ascii List Arith ZArith Bool Lia.
From Verif Require Import Base Num_Model Str_Model Str_Facts Opt_Model Opt_Facts Limits_Model.
Import ListNotations.
Local Open Scope Z_scope.

(** ** Fields of a line *)
(** Only blanks and tabs; a word has none of them. *)
Definition blanks (s : cstr) : Prop := forall c, In c s -> c = " "%char \/ c = c_tab.
Definition word (s : cstr) : Prop := s <> [] /\ forall c, In c s -> c <> " "%char /\ c <> c_tab.
(** A text with neither at its ends. *)
Definition tight (s : cstr) : Prop := s <> [] /\ (forall c s', s = (c :: s')%list -> c <> " "%char /\ c <> c_tab) /\ forall c s', s = (s' ++ [c])%list -> c <> " "%char /\ c <> c_tab.
(** The part of a line before a comment or its end, without white space at its start. *)
Definition body (l b : cstr) : Prop := exists sp rest, l = (sp ++ b ++ rest)%list /\ forallb isspace sp = true /\ ~ In "#"%char b /\ ~ In c_nl b /\
  (rest = [] \/ rest = [c_nl] \/ exists r, rest = "#"%char :: r) /\ (b = [] \/ exists c b', b = c :: b' /\ isspace c = false).
(** Two fields; four fields. *)
Definition fields2 (b d t : cstr) : Prop := exists p s1 s2, b = (p ++ d ++ s1 ++ t ++ s2)%list /\ blanks p /\ word d /\ blanks s1 /\ s1 <> [] /\ word t /\ blanks s2.
Definition fields4 (b d t i v : cstr) : Prop := exists p s1 s2 s3 s4, b = (p ++ d ++ s1 ++ t ++ s2 ++ i ++ s3 ++ v ++ s4)%list /\ blanks p /\ word d /\ blanks s1 /\ s1 <> [] /\ word t /\
  blanks s2 /\ s2 <> [] /\ word i /\ blanks s3 /\ s3 <> [] /\ tight v /\ blanks s4.

Notation DL := [" "%char; c_tab].
Lemma blanks_sep : forall s, blanks s <-> all_sep DL s.
Proof. intros s. unfold blanks, all_sep. split; intros H c I; specialize (H c I); cbn in *; intuition. Qed.
Lemma word_sep : forall s, word s <-> s <> [] /\ no_sep DL s.
Proof. intros s. unfold word, no_sep. split; intros (N & H); (split; [exact N|]); intros c I; specialize (H c I); cbn in *; intuition. Qed.
Lemma blank_iff : forall c, blank c = true <-> c = " "%char \/ c = c_tab.
Proof. intros c. unfold blank. rewrite orb_true_iff, !Ascii.eqb_eq. reflexivity. Qed.
Lemma blanks_all : forall s, blanks s <-> forallb blank s = true.
Proof. intros s. rewrite forallb_forall. unfold blanks. split; intros H c I; apply blank_iff; auto. Qed.
Lemma blank_no : forall c, blank c = false <-> c <> " "%char /\ c <> c_tab.
Proof. intros c. rewrite <- not_true_iff_false, blank_iff. tauto. Qed.
Lemma blanks_app : forall a b, blanks (a ++ b) <-> blanks a /\ blanks b.
Proof. intros a b. rewrite !blanks_all, forallb_app, andb_true_iff. reflexivity. Qed.
Lemma blanks_rev : forall s, blanks (rev s) <-> blanks s.
Proof. intros s. unfold blanks. split; intros H c I; apply H; [rewrite <- in_rev|rewrite in_rev]; exact I. Qed.

Lemma trim_some : forall r v, trim r = Some v <-> exists a z, r = (a ++ v ++ z)%list /\ blanks a /\ blanks z /\ tight v.
Proof.
  intros r v. unfold trim. split.
  - destruct (span blank r) as [a s1] eqn:E. apply span_app in E. destruct E as (-> & A & B). cbn [snd]. destruct s1 as [|c s1]; [discriminate|].
    destruct B as [B|(c' & b' & B & N)]; [discriminate|]. injection B as <- <-. destruct (span blank (rev (c :: s1))) as [z y] eqn:F. apply span_app in F. destruct F as (F & Z & Y). cbn [snd]. intro Q. assert (V : v = rev y) by congruence. subst v. clear Q.
    assert (G : c :: s1 = (rev y ++ rev z)%list) by (rewrite <- rev_app_distr, <- F, rev_involutive; reflexivity).
    exists a, (rev z). split; [rewrite G; reflexivity|]. split; [apply blanks_all; exact A|]. split; [apply blanks_rev, blanks_all; exact Z|].
    assert (NY : y <> []).
    { intros ->. cbn [rev app] in G. assert (I : In c z) by (apply in_rev; rewrite <- G; left; reflexivity). rewrite forallb_forall in Z. specialize (Z c I). congruence. }
    split; [intro Q; apply NY; rewrite <- (rev_involutive y), Q; reflexivity|]. split.
    + intros d s' Q. rewrite Q in G. injection G as <- _. apply blank_no. exact N.
    + intros d s' Q. assert (E : y = d :: rev s') by (rewrite <- (rev_involutive y), Q, rev_app_distr; reflexivity). destruct Y as [Y|(d' & b' & Y & M)]; [congruence|]. rewrite E in Y. injection Y as <- _. apply blank_no. exact M.
  - intros (a & z & -> & A & Z & (NV & H & L)). rewrite (span_spec blank a (v ++ z)).
    + cbn [snd]. assert (X : rev (snd (span blank (rev (v ++ z)))) = v).
      { rewrite rev_app_distr, (span_spec blank (rev z) (rev v)).
        - cbn [snd]. apply rev_involutive.
        - apply blanks_all, blanks_rev. exact Z.
        - right. destruct (rev v) as [|c q] eqn:R; [exfalso; apply NV; rewrite <- (rev_involutive v), R; reflexivity|]. exists c, q. split; [reflexivity|]. apply blank_no, (L c (rev q)). rewrite <- (rev_involutive v), R. reflexivity. }
      destruct v as [|c v]; [contradiction|]. cbn [app] in *. rewrite X. reflexivity.
    + apply blanks_all. exact A.
    + right. destruct v as [|c v]; [contradiction|]. exists c, (v ++ z)%list. split; [reflexivity|]. apply blank_no, (H c v). reflexivity.
Qed.
Lemma trim_none : forall r, trim r = None <-> blanks r.
Proof.
  intros r. unfold trim. destruct (span blank r) as [a s1] eqn:E. apply span_app in E. destruct E as (-> & A & B). cbn [snd]. destruct s1 as [|c s1].
  - rewrite app_nil_r. split; [intros _; apply blanks_all; exact A|reflexivity].
  - destruct B as [B|(c' & b' & B & N)]; [discriminate|]. injection B as <- <-. split; [discriminate|]. intro H. apply blanks_app in H. destruct H as (_ & H). apply blank_no in N. destruct (H c (or_introl eq_refl)); tauto.
Qed.

Lemma split_fields4 : forall b d t i v, split b = [d; t; i; v] <-> fields4 b d t i v.
Proof.
  intros b d t i v. unfold split. split.
  - destruct (strtok DL b) as [[d' r1]|] eqn:E1; [|discriminate]. destruct (strtok DL r1) as [[t' r2]|] eqn:E2; [|discriminate]. destruct (strtok DL r2) as [[i' r3]|] eqn:E3; [|discriminate].
    destruct (trim r3) as [v'|] eqn:E4; [|discriminate]. intro Q. assert (d' = d) by congruence. assert (t' = t) by congruence. assert (i' = i) by congruence. assert (v' = v) by congruence. subst d' t' i' v'. clear Q.
    apply strtok_some in E1, E2, E3. apply trim_some in E4. destruct E1 as (p1 & P1 & W1 & N1 & C1). destruct E2 as (p2 & P2 & W2 & N2 & C2). destruct E3 as (p3 & P3 & W3 & N3 & C3). destruct E4 as (a & z & R3 & A & Z & T).
    assert (M : forall (x : list ascii) (r p w q : cstr), r = [] -> r = (p ++ w ++ q)%list -> w <> [] -> False).
    { intros _ r p w q -> Q N. symmetry in Q. apply app_eq_nil in Q. destruct Q as (_ & Q). apply app_eq_nil in Q. destruct Q as (Q & _). contradiction. }
    destruct C3 as [(B3 & Q3)|(x3 & X3 & B3)]; [exfalso; apply (M [] r3 a v z Q3 R3); apply T|].
    destruct C2 as [(B2 & Q2)|(x2 & X2 & B2)]; [exfalso; apply (M [] r2 p3 i (x3 :: r3) Q2 B3 W3)|].
    destruct C1 as [(B1 & Q1)|(x1 & X1 & B1)]; [exfalso; apply (M [] r1 p2 t (x2 :: r2) Q1 B2 W2)|].
    assert (BX : forall x p, In x DL -> all_sep DL p -> blanks (x :: p)). { intros x p I S. apply blanks_sep. intros c [<-|J]; auto. }
    exists p1, (x1 :: p2), (x2 :: p3), (x3 :: a), z. split; [rewrite B1, B2, B3, R3; rewrite <- ?app_assoc; reflexivity|].
    split; [apply blanks_sep; exact P1|]. split; [apply word_sep; auto|]. split; [apply BX; assumption|]. split; [discriminate|]. split; [apply word_sep; auto|]. split; [apply BX; assumption|]. split; [discriminate|]. split; [apply word_sep; auto|].
    split; [apply BX; [assumption|apply blanks_sep; exact A]|]. split; [discriminate|]. split; [exact T|exact Z].
  - intros (p & s1 & s2 & s3 & s4 & -> & P & D & S1 & N1 & T & S2 & N2 & I & S3 & N3 & V & S4). apply word_sep in D, T, I. apply blanks_sep in P.
    destruct s1 as [|x1 s1]; [contradiction|]. destruct s2 as [|x2 s2]; [contradiction|]. destruct s3 as [|x3 s3]; [contradiction|].
    assert (HD : forall x s, blanks (x :: s) -> In x DL /\ all_sep DL s). { intros x s H. apply blanks_sep in H. split; [apply H; left; reflexivity|intros c J; apply H; right; exact J]. }
    apply HD in S1, S2. pose proof (HD _ _ S3) as S3'. cbn [app]. rewrite (strtok_more DL p d x1) by tauto. rewrite (strtok_more DL s1 t x2) by tauto. rewrite (strtok_more DL s2 i x3) by tauto.
    assert (Q : trim (s3 ++ v ++ s4) = Some v) by (apply trim_some; exists s3, s4; split; [reflexivity|]; split; [apply blanks_sep; tauto|]; split; [exact S4|exact V]). rewrite Q. reflexivity.
Qed.
Lemma split_fields2 : forall b d t, split b = [d; t] <-> fields2 b d t.
Proof.
  intros b d t. unfold split. split.
  - destruct (strtok DL b) as [[d' r1]|] eqn:E1; [|discriminate]. destruct (strtok DL r1) as [[t' r2]|] eqn:E2; [|discriminate]. destruct (strtok DL r2) as [[i' r3]|] eqn:E3; [destruct (trim r3); discriminate|].
    intro Q. assert (d' = d) by congruence. assert (t' = t) by congruence. subst d' t'. clear Q. apply strtok_some in E1, E2. apply strtok_none in E3. destruct E1 as (p1 & P1 & W1 & N1 & C1). destruct E2 as (p2 & P2 & W2 & N2 & C2).
    assert (BX : forall x p, In x DL -> all_sep DL p -> blanks (x :: p)). { intros x p I S. apply blanks_sep. intros c [<-|J]; auto. }
    destruct C1 as [(B1 & Q1)|(x1 & X1 & B1)].
    { exfalso. subst r1. destruct C2 as [(B2 & _)|(x2 & _ & B2)]; destruct p2; try discriminate; destruct t; try discriminate; contradiction. }
    destruct C2 as [(B2 & Q2)|(x2 & X2 & B2)].
    + exists p1, (x1 :: p2), []. rewrite B1, B2, app_nil_r. split; [reflexivity|]. split; [apply blanks_sep; exact P1|]. split; [apply word_sep; auto|]. split; [apply BX; assumption|]. split; [discriminate|]. split; [apply word_sep; auto|]. intros c [].
    + exists p1, (x1 :: p2), (x2 :: r2). rewrite B1, B2. split; [rewrite <- ?app_assoc; reflexivity|]. split; [apply blanks_sep; exact P1|]. split; [apply word_sep; auto|]. split; [apply BX; assumption|]. split; [discriminate|]. split; [apply word_sep; auto|]. apply BX; assumption.
  - intros (p & s1 & s2 & -> & P & D & S1 & N1 & T & S2). apply word_sep in D, T. apply blanks_sep in P. destruct s1 as [|x1 s1]; [contradiction|].
    assert (HD : forall x s, blanks (x :: s) -> In x DL /\ all_sep DL s). { intros x s H. apply blanks_sep in H. split; [apply H; left; reflexivity|intros c J; apply H; right; exact J]. }
    apply HD in S1. cbn [app]. rewrite (strtok_more DL p d x1) by tauto. destruct s2 as [|x2 s2].
    + rewrite app_nil_r. rewrite (strtok_last DL s1 t) by tauto. reflexivity.
    + apply HD in S2. rewrite (strtok_more DL s1 t x2) by tauto. assert (Q : strtok DL s2 = None) by (apply strtok_none; tauto). rewrite Q. reflexivity.
Qed.

(** A newline can only be at the end. *)
Definition line_text (l : cstr) : Prop := forall a b, l = (a ++ c_nl :: b)%list -> b = [].
Lemma skip_all : forall sp, forallb isspace sp = true -> skip_spaces sp = [].
Proof. induction sp as [|c sp IH]; [reflexivity|]. cbn [forallb]. intro H. apply andb_true_iff in H. cbn [skip_spaces]. rewrite (proj1 H). apply IH. tauto. Qed.
Lemma body_strip : forall l b, line_text l -> (strip l = b <-> body l b).
Proof.
  assert (U : forall l, line_text l -> body l (strip l)).
  { intros l LT. unfold strip. destruct (skip_spaces_split l) as (sp & E & SP). set (q := skip_spaces l) in *.
    assert (HQ : q = [] \/ exists c q', q = c :: q' /\ isspace c = false).
    { clear E SP sp LT. subst q. induction l as [|c l IH]; [left; reflexivity|]. cbn [skip_spaces]. destruct (isspace c) eqn:I; [exact IH|right; eauto]. }
    assert (K : exists a r, q = (a ++ r)%list /\ (match split_at "#"%char q with Some (a, _) => a | None => q end) = a /\ ~ In "#"%char a /\ (r = [] \/ exists r', r = "#"%char :: r')).
    { destruct (split_at "#"%char q) as [[a r]|] eqn:H.
      - apply split_at_some in H. destruct H as (-> & N). exists a, ("#"%char :: r). split; [reflexivity|]. split; [reflexivity|]. split; [exact N|]. right. eauto.
      - apply split_at_none in H. exists q, []. rewrite app_nil_r. auto. }
    destruct K as (a & r & QA & -> & NA & R).
    assert (K : exists b s, a = (b ++ s)%list /\ (match split_at c_nl a with Some (b, _) => b | None => a end) = b /\ ~ In c_nl b /\ (s = [] \/ exists s', s = c_nl :: s')).
    { destruct (split_at c_nl a) as [[b s]|] eqn:H.
      - apply split_at_some in H. destruct H as (-> & N). exists b, (c_nl :: s). split; [reflexivity|]. split; [reflexivity|]. split; [exact N|]. right. eauto.
      - apply split_at_none in H. exists a, []. rewrite app_nil_r. auto. }
    destruct K as (b & s & AB & -> & NB & S0). exists sp, (s ++ r)%list. split; [rewrite E, QA, AB, <- app_assoc; reflexivity|]. split; [exact SP|].
    split; [intro I; apply NA; rewrite AB; apply in_or_app; left; exact I|]. split; [exact NB|]. split.
    - destruct S0 as [->|(s' & ->)].
      + destruct R as [->|(r' & ->)]; [left; reflexivity|right; right; exists r'; reflexivity].
      + right. left. cbn [app]. assert (X : (s' ++ r)%list = []) by (apply (LT (sp ++ b)%list); rewrite E, QA, AB, <- !app_assoc; reflexivity). rewrite X. reflexivity.
    - destruct b as [|c b]; [left; reflexivity|]. right. exists c, b. split; [reflexivity|]. destruct HQ as [HQ|(c' & q' & HQ & I)]; [rewrite QA, AB in HQ; discriminate|]. rewrite QA, AB in HQ. injection HQ as <- _. exact I. }
  intros l b LT. split; [intros <-; apply U; exact LT|]. intros (sp & rest & -> & SP & N1 & N2 & R & H).
  unfold strip. destruct H as [->|(c & b' & -> & I)].
  - cbn [app]. destruct R as [->|[->|(r & ->)]].
    + rewrite app_nil_r, skip_all by exact SP. reflexivity.
    + rewrite skip_all by (rewrite forallb_app, SP; reflexivity). reflexivity.
    + rewrite skip_spaces_app by (exact SP || reflexivity). reflexivity.
  - cbn [app]. rewrite skip_spaces_app by assumption. change (c :: b' ++ rest)%list with ((c :: b') ++ rest)%list. set (b := c :: b') in *. clearbody b.
    destruct R as [->|[->|(r & ->)]].
    + rewrite app_nil_r. assert (X : split_at "#"%char b = None) by (apply split_at_none; exact N1). rewrite X. assert (Y : split_at c_nl b = None) by (apply split_at_none; exact N2). rewrite Y. reflexivity.
    + assert (X : split_at "#"%char (b ++ [c_nl]) = None). { apply split_at_none. intro J. apply in_app_or in J. destruct J as [J|[J|[]]]; [exact (N1 J)|discriminate]. } rewrite X.
      assert (Y : split_at c_nl (b ++ [c_nl]) = Some (b, [])) by (apply split_at_some; auto). rewrite Y. reflexivity.
    + assert (X : split_at "#"%char (b ++ "#"%char :: r) = Some (b, r)) by (apply split_at_some; auto). rewrite X. assert (Y : split_at c_nl b = None) by (apply split_at_none; exact N2). rewrite Y. reflexivity.
Qed.

(** ** Numbers and ranges of users *)
(** The number of a user or group: a decimal number of at most 64 bits, of which the lower 32 bits count. *)
Definition uid_number (s : cstr) (m : Z) : Prop := exists neg n, signed 10 s neg n [] /\ n <= ULONG_MAX /\ m = (if neg then - n else n) mod 2 ^ 32.
(** :m, lo: and lo:hi *)
Definition range_is (r : cstr) (rg : range) : Prop :=
  match rg with
  | ROne m => exists b, r = ":"%char :: b /\ uid_number b m
  | RMin lo => exists a, r = (a ++ [":"%char])%list /\ uid_number a lo
  | RMm lo hi => exists a b, r = (a ++ ":"%char :: b)%list /\ uid_number a lo /\ uid_number b hi
  | _ => False
  end.
Definition within (u : Z) (rg : range) : Prop := match rg with ROne m => u = m | RMin lo => lo <= u | RMm lo hi => lo <= u <= hi | _ => False end.

Lemma ten : 0 < 10 <= 10. Proof. lia. Qed.
Lemma signed_range : forall s neg n rest, signed 10 s neg n rest -> strtoul_range s = (ULONG_MAX <? n).
Proof. intros s neg n rest H. apply conv_signed in H; [|exact ten]. destruct H as (s1 & k & E & D). unfold strtoul_range. rewrite E, D. reflexivity. Qed.
Lemma no_colon : forall s neg n rest, signed 10 s neg n rest -> exists a, s = (a ++ rest)%list /\ ~ In ":"%char a /\ a <> [] /\ signed 10 a neg n [].
Proof.
  intros s neg n rest (sp & sg & ds & -> & SP & SG & BS & R). exists (sp ++ sg ++ ds)%list. split; [rewrite <- !app_assoc; reflexivity|]. split; [|split].
  - intro I. apply in_app_or in I. destruct I as [I|I]; [rewrite forallb_forall in SP; specialize (SP _ I); discriminate|]. apply in_app_or in I. destruct I as [I|I].
    + destruct SG as [(_ & ->)|(_ & [->| ->])]; cbn in I; intuition discriminate.
    + destruct BS as (_ & D & _). specialize (D _ I). vm_compute in D. discriminate.
  - destruct BS as (N & _ & _). intro Q. apply app_eq_nil in Q. destruct Q as (_ & Q). apply app_eq_nil in Q. apply N. apply Q.
  - exists sp, sg, ds. rewrite app_nil_r. auto 6.
Qed.
Lemma signed_colon : forall a b neg n, signed 10 a neg n [] -> signed 10 (a ++ ":"%char :: b) neg n (":"%char :: b).
Proof.
  intros a b neg n (sp & sg & ds & -> & SP & SG & BS & R). exists sp, sg, ds. rewrite app_nil_r. split; [rewrite <- !app_assoc; reflexivity|]. split; [exact SP|]. split; [exact SG|]. split; [exact BS|]. right. exists ":"%char, b. split; [reflexivity|]. vm_compute. intro Q. discriminate Q.
Qed.
Lemma to_uid_ulong : forall neg n, 0 <= n <= ULONG_MAX -> to_uid (ulong neg n) = (if neg then - n else n) mod 2 ^ 32.
Proof.
  intros neg n B. unfold to_uid, ulong. change 4294967296 with (2 ^ 32). assert (U : ULONG_MAX + 1 = 2 ^ 32 * 2 ^ 32) by reflexivity. destruct neg.
  - destruct (Z.leb_spec n ULONG_MAX); [|lia]. pose proof (Z.mod_pos_bound (- n) (2 ^ 64) ltac:(lia)) as M. assert (Q : 2 ^ 64 = ULONG_MAX + 1) by reflexivity. rewrite Z.min_l by lia. clear Q M.
    change (2 ^ 64) with (2 ^ 32 * 2 ^ 32). rewrite Z.rem_mul_r by lia. rewrite Z.mul_comm, Z_mod_plus_full, Z.mod_mod by lia. reflexivity.
  - rewrite Z.min_l by lia. reflexivity.
Qed.
Lemma uid_number_inj : forall s m m', uid_number s m -> uid_number s m' -> m = m'.
Proof. intros s m m' (neg & n & S0 & _ & ->) (neg' & n' & S1 & _ & ->). destruct (signed_unique _ _ _ _ _ _ _ _ ten S0 S1) as (-> & -> & _). reflexivity. Qed.
(** What the code reads from the text after the colon. *)
Definition upper (pmax : cstr) : option Z := match strtoul 10 pmax with
  | (v, Some rest) => if negb (strtoul_range pmax) && (match rest with [] => true | _ => false end) then Some (to_uid v) else None | (_, None) => None end.
Lemma upper_iff : forall s m, upper s = Some m <-> uid_number s m.
Proof.
  intros s m. unfold upper, uid_number. split.
  - destruct (strtoul 10 s) as [v [rest|]] eqn:E; [|discriminate]. apply strtoul_some in E; [|exact ten]. destruct E as (neg & n & S0 & ->). rewrite (signed_range _ _ _ _ S0). destruct (Z.ltb_spec ULONG_MAX n) as [L|L]; [discriminate|]. cbn [negb andb]. destruct rest; [|discriminate].
    intro Q. exists neg, n. split; [exact S0|]. split; [exact L|]. rewrite to_uid_ulong in Q by (pose proof (signed_nonneg _ _ _ _ _ ten S0); lia). congruence.
  - intros (neg & n & S0 & L & ->). assert (E : strtoul 10 s = (ulong neg n, Some [])) by (apply strtoul_some; [exact ten|]; exists neg, n; auto). rewrite E, (signed_range _ _ _ _ S0). destruct (Z.ltb_spec ULONG_MAX n); [lia|]. cbn [negb andb]. rewrite to_uid_ulong by (pose proof (signed_nonneg _ _ _ _ _ ten S0); lia). reflexivity.
Qed.
Lemma uid_number_ne : forall m, ~ uid_number [] m.
Proof. intros m (neg & n & S0 & _). destruct (no_colon _ _ _ _ S0) as (a & Q & _ & N & _). rewrite app_nil_r in Q. congruence. Qed.
Lemma uid_number_colon : forall s m, uid_number s m -> ~ In ":"%char s.
Proof. intros s m (neg & n & S0 & _). destruct (no_colon _ _ _ _ S0) as (a & -> & N & _). rewrite app_nil_r. exact N. Qed.
(** The first character of a number is no mark. *)
Lemma uid_number_hd : forall c s m, uid_number (c :: s) m -> c <> ":"%char /\ c <> "@"%char /\ c <> "%"%char.
Proof.
  intros c s m (neg & n & (sp & sg & ds & E & SP & SG & (N & D & _) & _) & _). rewrite app_nil_r in E. destruct sp as [|x sp].
  - cbn [app] in E. destruct SG as [(_ & ->)|(_ & [->| ->])]; cbn [app lit list_ascii_of_string] in E; try (injection E as -> _; repeat split; discriminate). destruct ds as [|d ds]; [contradiction|]. injection E as -> _. specialize (D d (or_introl eq_refl)).
    split; [|split]; intros ->; vm_compute in D; discriminate.
  - injection E as -> _. cbn [forallb] in SP. apply andb_true_iff in SP. destruct SP as (SP & _). split; [|split]; intros ->; discriminate.
Qed.

Definition unmark (d : cstr) : cstr := match d with c :: d' => if Ascii.eqb c "@"%char || Ascii.eqb c "%"%char then d' else d | [] => d end.
Lemma unmark_split : forall d, d = unmark d \/ exists c, (c = "@"%char \/ c = "%"%char) /\ d = c :: unmark d.
Proof.
  intros [|c d]; [left; reflexivity|]. unfold unmark. destruct (Ascii.eqb_spec c "@") as [->|N1]; [right; exists "@"%char; auto|]. destruct (Ascii.eqb_spec c "%") as [->|N2]; [right; exists "%"%char; auto|]. left. reflexivity.
Qed.
Lemma range_colon : forall r rg, range_is r rg -> In ":"%char r.
Proof. intros r [| |m|lo|lo hi] H; try contradiction; [destruct H as (b & -> & _)|destruct H as (a & -> & _)|destruct H as (a & b & -> & _)]; [left; reflexivity|apply in_or_app; right; left; reflexivity|apply in_or_app; right; left; reflexivity]. Qed.
Lemma colon_unmark : forall d, In ":"%char d <-> In ":"%char (unmark d).
Proof. intros d. destruct (unmark_split d) as [E|(c & C & E)]; [rewrite <- E; reflexivity|]. rewrite E at 1. split; [|right; assumption]. intros [Q|Q]; [|exact Q]. subst c. destruct C; discriminate. Qed.

Lemma parse_range_unfold : forall d, parse_uid_range d = match split_at ":"%char (unmark d) with
  | None => RNone
  | Some (a, pmax) => match a with
      | [] => match pmax with [] => RErr | _ => match upper pmax with Some v => ROne v | None => RErr end end
      | _ => match upper a with Some v => match pmax with [] => RMin v | _ => match upper pmax with Some w => RMm v w | None => RErr end end | None => RErr end
      end
  end.
Proof.
  intros d. unfold parse_uid_range. fold (unmark d). set (r := unmark d).
  assert (SA : match split_at ":"%char d with None => split_at ":"%char r = None | Some (_, p) => exists a, split_at ":"%char r = Some (a, p) end).
  { subst r. destruct (unmark_split d) as [E|(c & C & E)].
    - rewrite <- E. destruct (split_at ":"%char d) as [[a p]|]; eauto.
    - assert (X : split_at ":"%char d = split_at ":"%char (c :: unmark d)) by (rewrite <- E; reflexivity). rewrite X. cbn [split_at]. destruct (Ascii.eqb_spec c ":") as [->|N]; [destruct C; discriminate|]. destruct (split_at ":"%char (unmark d)) as [[a p]|]; eauto. }
  destruct (split_at ":"%char d) as [[a0 pmax]|]; [|rewrite SA; reflexivity]. destruct SA as (a & SA). rewrite SA. apply split_at_some in SA. destruct SA as (R & NA). fold (upper pmax). rewrite R. destruct a as [|c a]; cbn [app].
  - rewrite Ascii.eqb_refl. reflexivity.
  - destruct (Ascii.eqb_spec c ":") as [->|NC]; [exfalso; apply NA; left; reflexivity|]. change (c :: a ++ ":"%char :: pmax)%list with ((c :: a) ++ ":"%char :: pmax)%list. set (l := c :: a) in *. clearbody l.
    destruct (upper l) as [v|] eqn:U.
    + apply upper_iff in U. destruct U as (neg & n & S0 & L & ->). assert (E : strtoul 10 (l ++ ":"%char :: pmax) = (ulong neg n, Some (":"%char :: pmax))) by (apply strtoul_some; [exact ten|]; exists neg, n; split; [apply signed_colon; exact S0|reflexivity]).
      rewrite E, (signed_range _ _ _ _ (signed_colon _ pmax _ _ S0)). destruct (Z.ltb_spec ULONG_MAX n); [lia|]. cbn [negb andb]. rewrite Ascii.eqb_refl, to_uid_ulong by (pose proof (signed_nonneg _ _ _ _ _ ten S0); lia). reflexivity.
    + destruct (strtoul 10 (l ++ ":"%char :: pmax)) as [v [[|x rest]|]] eqn:E; try reflexivity. destruct (negb (strtoul_range (l ++ ":"%char :: pmax)) && Ascii.eqb x ":"%char) eqn:G; [|reflexivity]. exfalso.
      apply andb_true_iff in G. destruct G as (G & X). apply Ascii.eqb_eq in X. subst x. apply strtoul_some in E; [|exact ten]. destruct E as (neg & n & S0 & ->). rewrite (signed_range _ _ _ _ S0) in G. destruct (Z.ltb_spec ULONG_MAX n) as [L|L]; [discriminate|].
      destruct (no_colon _ _ _ _ S0) as (q & Q & NQ & _ & SQ). assert (q = l).
      { assert (A : split_at ":"%char (l ++ ":"%char :: pmax) = Some (l, pmax)) by (apply split_at_some; auto). assert (B : split_at ":"%char (l ++ ":"%char :: pmax) = Some (q, rest)) by (apply split_at_some; auto). congruence. }
      subst q. assert (Y : upper l = Some ((if neg then - n else n) mod 2 ^ 32)) by (apply upper_iff; exists neg, n; auto). congruence.
Qed.
Lemma parse_range_some : forall d rg, (rg <> RErr /\ rg <> RNone) -> (parse_uid_range d = rg <-> range_is (unmark d) rg).
Proof.
  intros d rg NR. rewrite parse_range_unfold. destruct (split_at ":"%char (unmark d)) as [[a pmax]|] eqn:SA.
  2:{ split; [intros <-; exfalso; destruct NR; congruence|]. intro H. apply range_colon in H. apply split_at_none in SA. contradiction. }
  apply split_at_some in SA. destruct SA as (R & NA). rewrite R.
  assert (UQ : forall a' b', (a ++ ":"%char :: pmax)%list = (a' ++ ":"%char :: b')%list -> ~ In ":"%char a' -> a' = a /\ b' = pmax).
  { intros a' b' E N. assert (A : split_at ":"%char (a ++ ":"%char :: pmax) = Some (a, pmax)) by (apply split_at_some; auto). assert (B : split_at ":"%char (a ++ ":"%char :: pmax) = Some (a', b')) by (apply split_at_some; auto). rewrite A in B. split; congruence. }
  split.
  - destruct a as [|c a].
    + destruct pmax as [|x pmax]; [intros <-; exfalso; destruct NR; congruence|]. destruct (upper (x :: pmax)) as [v|] eqn:U; intros <-; [|exfalso; destruct NR; congruence]. apply upper_iff in U. exists (x :: pmax). auto.
    + destruct (upper (c :: a)) as [v|] eqn:U; [|intros <-; exfalso; destruct NR; congruence]. apply upper_iff in U. destruct pmax as [|x pmax]; [intros <-; exists (c :: a); auto|].
      destruct (upper (x :: pmax)) as [w|] eqn:U2; intros <-; [|exfalso; destruct NR; congruence]. apply upper_iff in U2. exists (c :: a), (x :: pmax). auto.
  - destruct rg as [| |m|lo|lo hi]; intro H; try contradiction.
    + destruct H as (b & E & U). destruct (UQ [] b E (fun I => I)) as (<- & ->). destruct pmax as [|x pmax]; [exfalso; exact (uid_number_ne _ U)|]. apply upper_iff in U. rewrite U. reflexivity.
    + destruct H as (a' & E & U). destruct (UQ a' [] E (uid_number_colon _ _ U)) as (-> & <-). destruct a as [|c a]; [exfalso; exact (uid_number_ne _ U)|]. apply upper_iff in U. rewrite U. reflexivity.
    + destruct H as (a' & b & E & U & U2). destruct (UQ a' b E (uid_number_colon _ _ U)) as (-> & ->). destruct a as [|c a]; [exfalso; exact (uid_number_ne _ U)|]. apply upper_iff in U. rewrite U. destruct pmax as [|x pmax]; [exfalso; exact (uid_number_ne _ U2)|]. apply upper_iff in U2. rewrite U2. reflexivity.
Qed.
Lemma parse_range_none : forall d, parse_uid_range d = RNone <-> ~ In ":"%char d.
Proof.
  intros d. rewrite parse_range_unfold, colon_unmark. destruct (split_at ":"%char (unmark d)) as [[a pmax]|] eqn:SA.
  - split; [|intro N; apply split_at_some in SA; destruct SA as (R & _); exfalso; apply N; rewrite R; apply in_or_app; right; left; reflexivity].
    destruct a; [destruct pmax; [discriminate|]; destruct (upper _); discriminate|]. destruct (upper _); [|discriminate]. destruct pmax; [discriminate|]. destruct (upper _); discriminate.
  - apply split_at_none in SA. tauto.
Qed.
(** The first character of a range is no mark. *)
Lemma range_plain : forall r rg, range_is r rg -> unmark r = r.
Proof.
  intros r rg H. assert (P : forall c s, r = c :: s -> c <> "@"%char /\ c <> "%"%char).
  { intros c s ->. destruct rg as [| |m|lo|lo hi]; try contradiction.
    - destruct H as (b & E & _). injection E as -> _. split; discriminate.
    - destruct H as (a & E & U). destruct a as [|x a]; [exfalso; exact (uid_number_ne _ U)|]. injection E as -> _. apply uid_number_hd in U. tauto.
    - destruct H as (a & b & E & U & _). destruct a as [|x a]; [exfalso; exact (uid_number_ne _ U)|]. injection E as -> _. apply uid_number_hd in U. tauto. }
  destruct r as [|c s]; [reflexivity|]. destruct (P c s eq_refl) as (A & B). unfold unmark. destruct (Ascii.eqb_spec c "@"); [contradiction|]. destruct (Ascii.eqb_spec c "%"); [contradiction|]. reflexivity.
Qed.

(** ** Whom a line is for *)
(** The domain [d] is for the user, with this precedence (0 the highest); the group is the one whose logins are counted together. *)
Inductive applies (g : groups) (w : who) : cstr -> Z -> option cstr -> Prop :=
| by_name : applies g w (w_name w) 0 None
| by_uid : forall d rg, d <> w_name w -> range_is d rg -> within (w_uid w) rg -> applies g w d 0 None
| by_group : forall n, "@"%char :: n <> w_name w -> ~ In ":"%char n -> g_nam_nam g (w_name w) n = true -> applies g w ("@"%char :: n) 1 None
| by_gid : forall b m, "@"%char :: ":"%char :: b <> w_name w -> uid_number b m -> g_nam_gid g (w_name w) m = true -> applies g w ("@"%char :: ":"%char :: b) 1 None
| by_gid_range : forall r rg, "@"%char :: r <> w_name w -> range_is r rg -> (forall m, rg <> ROne m) -> within (w_gid w) rg -> applies g w ("@"%char :: r) 1 None
| by_all_of_group : forall n, "%"%char :: n <> w_name w -> n <> [] -> ~ In ":"%char n -> g_nam_nam g (w_name w) n = true -> applies g w ("%"%char :: n) 2 (Some n)
| by_all_of_gid : forall b m n, "%"%char :: ":"%char :: b <> w_name w -> uid_number b m -> g_nam_gid g (w_name w) m = true -> g_name g m = Some n -> applies g w ("%"%char :: ":"%char :: b) 2 (Some n)
| by_all : lit "%" <> w_name w -> applies g w (lit "%") 3 None
| by_default : lit "*" <> w_name w -> applies g w (lit "*") 4 None.
(** The domain of a line without limits is for the user. *)
Inductive exempts (g : groups) (w : who) : cstr -> Prop :=
| ex_name : exempts g w (w_name w)
| ex_uid : forall d rg, d <> w_name w -> range_is d rg -> within (w_uid w) rg -> exempts g w d
| ex_group : forall n, "@"%char :: n <> w_name w -> ~ In ":"%char n -> g_nam_nam g (w_name w) n = true -> exempts g w ("@"%char :: n)
| ex_gid : forall b m, "@"%char :: ":"%char :: b <> w_name w -> uid_number b m -> g_nam_gid g (w_name w) m = true -> exempts g w ("@"%char :: ":"%char :: b)
| ex_gid_range : forall r rg, "@"%char :: r <> w_name w -> range_is r rg -> (forall m, rg <> ROne m) -> within (w_gid w) rg -> exempts g w ("@"%char :: r)
| ex_percent_uid : forall r rg, "%"%char :: r <> w_name w -> range_is r rg -> within (w_uid w) rg -> exempts g w ("%"%char :: r).

Section Domain.
Variables (g : groups) (w : who).
Hypothesis NC : ~ In ":"%char (w_name w).
(** Membership by number is of groups that have a name. *)
Hypothesis named : forall m, g_nam_gid g (w_name w) m = true -> g_name g m <> None.

Definition hit_of (src : Z) (grp : option cstr) : hit := match grp with None => Hit src | Some n => HitGroup n end.
Definition got (d : cstr) : hit := match parse_uid_range d with RErr => Miss | r => domain_hit g w d r end.
Definition let_off (d : cstr) : bool := match parse_uid_range d with RErr => false | r => exempt_hit g w d r end.

Lemma streq_no : forall a b, a <> b -> streq a b = false.
Proof. intros a b N. destruct (streq a b) eqn:E; [apply streq_eq in E; contradiction|reflexivity]. Qed.
Lemma unmark_at : forall r, unmark ("@"%char :: r) = r. Proof. reflexivity. Qed.
Lemma unmark_pc : forall r, unmark ("%"%char :: r) = r. Proof. reflexivity. Qed.
Lemma range_real : forall r rg, range_is r rg -> rg <> RErr /\ rg <> RNone.
Proof. intros r [] H; try contradiction; split; discriminate. Qed.

Lemma applies_got : forall d src grp, applies g w d src grp -> got d = hit_of src grp.
Proof.
  intros d src grp H. destruct H as [|d rg N R W|n N C M|b m N U M|r rg N R O W|n N NE C M|b m n N U M G|N|N]; unfold got.
  - pose proof NC as NC'. apply parse_range_none in NC'. rewrite NC'. unfold domain_hit. rewrite streq_refl. reflexivity.
  - pose proof (range_plain _ _ R) as P. pose proof R as R'. rewrite <- P in R'. apply parse_range_some in R'; [|eapply range_real; eassumption]. rewrite R'. unfold domain_hit. rewrite streq_no by (intro Q; apply N; congruence).
    assert (S1 : starts "@"%char d = false /\ starts "%"%char d = false).
    { destruct d as [|c d]; [auto|]. cbn [starts]. unfold unmark in P. destruct (Ascii.eqb_spec c "@") as [->|N1]; [cbn in P; exfalso; apply (f_equal (@length ascii)) in P; cbn in P; lia|]. destruct (Ascii.eqb_spec c "%") as [->|N2]; [cbn in P; exfalso; apply (f_equal (@length ascii)) in P; cbn in P; lia|]. auto. }
    destruct S1 as (-> & ->). destruct rg as [| |m|lo|lo hi]; try contradiction; cbn [within] in W.
    + subst m. rewrite Z.eqb_refl, Z.ltb_irrefl, Z.leb_refl. reflexivity.
    + apply Z.leb_le in W. rewrite W. reflexivity.
    + destruct W as (W1 & W2). apply Z.leb_le in W1. rewrite W1. destruct (Z.ltb_spec hi (w_uid w)); [lia|]. reflexivity.
  - assert (R : parse_uid_range ("@"%char :: n) = RNone) by (apply parse_range_none; intros [Q|Q]; [discriminate|contradiction]). rewrite R. unfold domain_hit. rewrite streq_no by congruence. cbn [starts tl]. rewrite Ascii.eqb_refl, M. reflexivity.
  - assert (R : parse_uid_range ("@"%char :: ":"%char :: b) = ROne m) by (apply parse_range_some; [split; discriminate|]; rewrite unmark_at; exists b; auto). rewrite R. unfold domain_hit. rewrite streq_no by congruence. cbn [starts tl]. rewrite Ascii.eqb_refl, M. reflexivity.
  - assert (E : parse_uid_range ("@"%char :: r) = rg) by (apply parse_range_some; [eapply range_real; eassumption|exact R]). rewrite E. destruct rg as [| |m|lo|lo hi]; try contradiction; [exfalso; apply (O m); reflexivity| |]; unfold domain_hit; rewrite streq_no by congruence; cbn [starts tl]; rewrite Ascii.eqb_refl; cbn [within] in W.
    + apply Z.leb_le in W. rewrite W. reflexivity.
    + destruct W as (W1 & W2). apply Z.leb_le in W1. rewrite W1. destruct (Z.ltb_spec hi (w_gid w)); [lia|]. reflexivity.
  - assert (R : parse_uid_range ("%"%char :: n) = RNone) by (apply parse_range_none; intros [Q|Q]; [discriminate|contradiction]). rewrite R. unfold domain_hit. rewrite streq_no by congruence. cbn [starts tl]. rewrite Ascii.eqb_refl.
    change (Ascii.eqb "%"%char "@"%char) with false. cbn iota. rewrite streq_no by (intro Q; apply NE; injection Q as Q; exact Q). rewrite M. reflexivity.
  - assert (R : parse_uid_range ("%"%char :: ":"%char :: b) = ROne m) by (apply parse_range_some; [split; discriminate|]; rewrite unmark_pc; exists b; auto). rewrite R. unfold domain_hit. rewrite streq_no by congruence. cbn [starts tl]. rewrite Ascii.eqb_refl.
    change (Ascii.eqb "%"%char "@"%char) with false. cbn iota. rewrite M, G. reflexivity.
  - assert (R : parse_uid_range (lit "%") = RNone) by reflexivity. rewrite R. unfold domain_hit. rewrite streq_no by congruence. reflexivity.
  - assert (R : parse_uid_range (lit "*") = RNone) by reflexivity. rewrite R. unfold domain_hit. rewrite streq_no by congruence. reflexivity.
Qed.

Lemma starts_iff : forall c d, starts c d = true <-> exists d', d = c :: d'.
Proof. intros c [|x d]; cbn [starts]; [split; [discriminate|intros (d' & Q); discriminate]|]. rewrite Ascii.eqb_eq. split; [intros ->; eauto|intros (d' & Q); congruence]. Qed.
Lemma plain_unmark : forall d, starts "@"%char d = false -> starts "%"%char d = false -> unmark d = d.
Proof. intros [|c d] A B; [reflexivity|]. cbn [starts] in A, B. unfold unmark. rewrite A, B. reflexivity. Qed.

Lemma got_applies : forall d, match got d with Miss => forall src grp, ~ applies g w d src grp | Crash => False | Hit s => applies g w d s None | HitGroup n => applies g w d 2 (Some n) end.
Proof.
  intros d. assert (MS : got d = Miss -> forall src grp, ~ applies g w d src grp). { intros Q src grp A. apply applies_got in A. rewrite Q in A. destruct grp; discriminate. }
  destruct (got d) as [|s|n|] eqn:E; [apply MS; reflexivity| | |]; clear MS.
  - unfold got in E. destruct (parse_uid_range d) as [| |m|lo|lo hi] eqn:R; try discriminate; unfold domain_hit in E; destruct (streq (w_name w) d) eqn:SD;
      try (apply streq_eq in SD; subst d; injection E as <-; constructor); assert (ND : d <> w_name w) by (intros ->; rewrite streq_refl in SD; discriminate); clear SD.
    + apply parse_range_none in R. destruct (starts "@"%char d) eqn:SA.
      * apply starts_iff in SA. destruct SA as (n & ->). cbn [tl] in E. destruct (g_nam_nam g (w_name w) n) eqn:M; [|discriminate]. injection E as <-. apply by_group; [exact ND|intro I; apply R; right; exact I|exact M].
      * destruct (starts "%"%char d) eqn:SP; [destruct (streq d (lit "%")) eqn:SE; [apply streq_eq in SE; subst d; injection E as <-; apply by_all; exact ND|destruct (g_nam_nam _ _ _); discriminate]|].
        destruct (streq d (lit "*")) eqn:SE; [|discriminate]. apply streq_eq in SE. subst d. injection E as <-. apply by_default. exact ND.
    + apply parse_range_some in R; [|split; discriminate]. destruct (starts "@"%char d) eqn:SA.
      * apply starts_iff in SA. destruct SA as (n & ->). rewrite unmark_at in R. destruct R as (b & -> & U). destruct (g_nam_gid g (w_name w) m) eqn:M; [|discriminate]. injection E as <-. apply (by_gid g w b m); assumption.
      * destruct (starts "%"%char d) eqn:SP; [destruct (g_nam_gid _ _ _); [destruct (g_name g m); discriminate|discriminate]|]. rewrite plain_unmark in R by assumption. destruct ((w_uid w =? m) && negb (m <? w_uid w) && (m <=? w_uid w)) eqn:G; [|discriminate]. injection E as <-. apply (by_uid g w d (ROne m)); [exact ND|exact R|]. cbn. apply andb_true_iff in G. destruct G as (G & _). apply andb_true_iff in G. destruct G as (G & _). apply Z.eqb_eq. exact G.
    + apply parse_range_some in R; [|split; discriminate]. destruct (starts "@"%char d) eqn:SA.
      * apply starts_iff in SA. destruct SA as (n & ->). rewrite unmark_at in R. destruct (Z.leb_spec lo (w_gid w)) as [L|L]; [|discriminate]. injection E as <-. apply (by_gid_range g w n (RMin lo)); [exact ND|exact R|discriminate|exact L].
      * destruct (starts "%"%char d) eqn:SP; [discriminate|]. rewrite plain_unmark in R by assumption. destruct (Z.leb_spec lo (w_uid w)) as [L|L]; [|discriminate]. injection E as <-. apply (by_uid g w d (RMin lo)); [exact ND|exact R|exact L].
    + apply parse_range_some in R; [|split; discriminate]. destruct (starts "@"%char d) eqn:SA.
      * apply starts_iff in SA. destruct SA as (n & ->). rewrite unmark_at in R. destruct (negb (hi <? w_gid w) && (lo <=? w_gid w)) eqn:G; [|discriminate]. apply andb_true_iff in G. destruct G as (G1 & G2). apply negb_true_iff, Z.ltb_ge in G1. apply Z.leb_le in G2. injection E as <-. apply (by_gid_range g w n (RMm lo hi)); [exact ND|exact R|discriminate|cbn; lia].
      * destruct (starts "%"%char d) eqn:SP; [discriminate|]. rewrite plain_unmark in R by assumption. destruct (negb (hi <? w_uid w) && (lo <=? w_uid w)) eqn:G; [|discriminate]. apply andb_true_iff in G. destruct G as (G1 & G2). apply negb_true_iff, Z.ltb_ge in G1. apply Z.leb_le in G2. injection E as <-. apply (by_uid g w d (RMm lo hi)); [exact ND|exact R|cbn; lia].
  - unfold got in E. destruct (parse_uid_range d) as [| |m|lo|lo hi] eqn:R; try discriminate; unfold domain_hit in E; destruct (streq (w_name w) d) eqn:SD; try discriminate; assert (ND : d <> w_name w) by (intros ->; rewrite streq_refl in SD; discriminate); clear SD.
    + apply parse_range_none in R. destruct (starts "@"%char d) eqn:SA; [destruct (g_nam_nam _ _ _); discriminate|]. destruct (starts "%"%char d) eqn:SP; [|destruct (streq d _); discriminate].
      apply starts_iff in SP. destruct SP as (q & ->). cbn [tl] in E. destruct (streq ("%"%char :: q) (lit "%")) eqn:SE; [discriminate|]. destruct (g_nam_nam g (w_name w) q) eqn:M; [|discriminate]. injection E as <-. apply by_all_of_group; [exact ND| |intro I; apply R; right; exact I|exact M]. intros ->. rewrite streq_refl in SE. discriminate.
    + apply parse_range_some in R; [|split; discriminate]. destruct (starts "@"%char d) eqn:SA; [destruct (g_nam_gid _ _ _); discriminate|]. destruct (starts "%"%char d) eqn:SP; [|destruct (_ && _ && _); discriminate].
      apply starts_iff in SP. destruct SP as (q & ->). rewrite unmark_pc in R. destruct R as (b & -> & U). destruct (g_nam_gid g (w_name w) m) eqn:M; [|discriminate]. destruct (g_name g m) as [n'|] eqn:G; [|discriminate]. injection E as <-. apply (by_all_of_gid g w b m n'); assumption.
    + destruct (starts "@"%char d); [destruct (_ <=? _); discriminate|]. destruct (starts "%"%char d); [discriminate|]. destruct (_ <=? _); discriminate.
    + destruct (starts "@"%char d); [destruct (_ && _); discriminate|]. destruct (starts "%"%char d); [discriminate|]. destruct (_ && _); discriminate.
  - unfold got in E. destruct (parse_uid_range d) as [| |m|lo|lo hi] eqn:R; try discriminate; unfold domain_hit in E; destruct (streq (w_name w) d) eqn:SD; try discriminate; destruct (starts "@"%char d); try (destruct (g_nam_nam _ _ _); discriminate); try (destruct (g_nam_gid _ _ _); discriminate); try (destruct (_ && _); discriminate); try (destruct (_ <=? _); discriminate);
      destruct (starts "%"%char d); try discriminate; try (destruct (_ && _); discriminate); try (destruct (_ <=? _); discriminate).
    + destruct (streq d (lit "%")); [discriminate|]. destruct (g_nam_nam _ _ _); discriminate.
    + destruct (streq d _); discriminate.
    + destruct (g_nam_gid g (w_name w) m) eqn:M; [|discriminate]. destruct (g_name g m) eqn:G; [discriminate|]. exact (named m M G).
Qed.
Lemma let_off_iff : forall d, let_off d = true <-> exempts g w d.
Proof.
  intros d. unfold let_off. split.
  - destruct (parse_uid_range d) as [| |m|lo|lo hi] eqn:R; try discriminate; unfold exempt_hit; destruct (streq (w_name w) d) eqn:SD;
      try (apply streq_eq in SD; subst d; intros _; constructor); assert (ND : d <> w_name w) by (intros ->; rewrite streq_refl in SD; discriminate); clear SD.
    + apply parse_range_none in R. destruct (starts "@"%char d) eqn:SA; [|discriminate]. apply starts_iff in SA. destruct SA as (n & ->). cbn [tl]. intro M. apply ex_group; [exact ND|intro I; apply R; right; exact I|exact M].
    + apply parse_range_some in R; [|split; discriminate]. destruct (starts "@"%char d) eqn:SA.
      * apply starts_iff in SA. destruct SA as (n & ->). rewrite unmark_at in R. destruct R as (b & -> & U). intro M. apply (ex_gid g w b m); assumption.
      * intro Q. apply Z.eqb_eq in Q. destruct (starts "%"%char d) eqn:SP.
        -- apply starts_iff in SP. destruct SP as (n & ->). rewrite unmark_pc in R. apply (ex_percent_uid g w n (ROne m)); assumption.
        -- rewrite plain_unmark in R by assumption. apply (ex_uid g w d (ROne m)); assumption.
    + apply parse_range_some in R; [|split; discriminate]. destruct (starts "@"%char d) eqn:SA.
      * apply starts_iff in SA. destruct SA as (n & ->). rewrite unmark_at in R. intro Q. apply negb_true_iff, Z.ltb_ge in Q. apply (ex_gid_range g w n (RMin lo)); [exact ND|exact R|discriminate|exact Q].
      * intro Q. apply Z.leb_le in Q. destruct (starts "%"%char d) eqn:SP.
        -- apply starts_iff in SP. destruct SP as (n & ->). rewrite unmark_pc in R. apply (ex_percent_uid g w n (RMin lo)); assumption.
        -- rewrite plain_unmark in R by assumption. apply (ex_uid g w d (RMin lo)); assumption.
    + apply parse_range_some in R; [|split; discriminate]. destruct (starts "@"%char d) eqn:SA.
      * apply starts_iff in SA. destruct SA as (n & ->). rewrite unmark_at in R. intro Q. apply andb_true_iff in Q. destruct Q as (G1 & G2). apply negb_true_iff, Z.ltb_ge in G1, G2. apply (ex_gid_range g w n (RMm lo hi)); [exact ND|exact R|discriminate|cbn; lia].
      * intro Q. apply andb_true_iff in Q. destruct Q as (G1 & G2). apply negb_true_iff, Z.ltb_ge in G1. apply Z.leb_le in G2. destruct (starts "%"%char d) eqn:SP.
        -- apply starts_iff in SP. destruct SP as (n & ->). rewrite unmark_pc in R. apply (ex_percent_uid g w n (RMm lo hi)); [exact ND|exact R|cbn; lia].
        -- rewrite plain_unmark in R by assumption. apply (ex_uid g w d (RMm lo hi)); [exact ND|exact R|cbn; lia].
  - intros [|d' rg N R W|n N C M|b m N U M|r rg N R O W|r rg N R W].
    + pose proof NC as NC'. apply parse_range_none in NC'. rewrite NC'. unfold exempt_hit. rewrite streq_refl. reflexivity.
    + pose proof (range_plain _ _ R) as P. pose proof R as R'. rewrite <- P in R'. apply parse_range_some in R'; [|eapply range_real; eassumption]. rewrite R'.
      assert (S1 : starts "@"%char d' = false).
      { destruct d' as [|c q]; [auto|]. cbn [starts]. unfold unmark in P. destruct (Ascii.eqb_spec c "@") as [->|N1]; [cbn in P; exfalso; apply (f_equal (@length ascii)) in P; cbn in P; lia|]. reflexivity. }
      destruct rg as [| |m|lo|lo hi]; try contradiction; unfold exempt_hit; rewrite streq_no by congruence; rewrite S1; cbn [within] in W.
      * subst m. apply Z.eqb_refl.
      * apply Z.leb_le. exact W.
      * destruct W as (W1 & W2). apply Z.leb_le in W1. rewrite W1. destruct (Z.ltb_spec hi (w_uid w)); [lia|]. reflexivity.
    + assert (R : parse_uid_range ("@"%char :: n) = RNone) by (apply parse_range_none; intros [Q|Q]; [discriminate|contradiction]). rewrite R. unfold exempt_hit. rewrite streq_no by congruence. exact M.
    + assert (R : parse_uid_range ("@"%char :: ":"%char :: b) = ROne m) by (apply parse_range_some; [split; discriminate|]; rewrite unmark_at; exists b; auto). rewrite R. unfold exempt_hit. rewrite streq_no by congruence. exact M.
    + assert (E : parse_uid_range ("@"%char :: r) = rg) by (apply parse_range_some; [eapply range_real; eassumption|exact R]). rewrite E. destruct rg as [| |m|lo|lo hi]; try contradiction; [exfalso; apply (O m); reflexivity| |]; unfold exempt_hit; rewrite streq_no by congruence; cbn [starts]; rewrite Ascii.eqb_refl; cbn [within] in W.
      * destruct (Z.ltb_spec (w_gid w) lo); [lia|]. reflexivity.
      * destruct (Z.ltb_spec (w_gid w) lo); [lia|]. destruct (Z.ltb_spec hi (w_gid w)); [lia|]. reflexivity.
    + assert (E : parse_uid_range ("%"%char :: r) = rg) by (apply parse_range_some; [eapply range_real; eassumption|exact R]). rewrite E. destruct rg as [| |m|lo|lo hi]; try contradiction; unfold exempt_hit; rewrite streq_no by congruence; cbn [starts]; change (Ascii.eqb "%"%char "@"%char) with false; cbn iota; cbn [within] in W.
      * subst m. apply Z.eqb_refl.
      * apply Z.leb_le. exact W.
      * destruct W as (W1 & W2). apply Z.leb_le in W1. rewrite W1. destruct (Z.ltb_spec hi (w_uid w)); [lia|]. reflexivity.
Qed.
End Domain.
