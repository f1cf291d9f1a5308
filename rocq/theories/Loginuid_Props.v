(** C102: pam_loginuid sets the login uid of the user. *)
From Coq Require Import String Ascii List Arith ZArith Bool Lia.
From Verif Require Import Base Str_Model Str_Facts Loginuid_Model.
Import ListNotations.
Local Open Scope Z_scope.

(** ** Spec *)
(** The process is in a user namespace of its own, or it cannot be told: the map could be opened but is not the beginning of the map of the host. *)
Definition contained (m : option (list ascii)) : Prop := exists t, m = Some t /\ (t = [] \/ forall x, (t ++ x)%list <> (lit "         0          0 4294967295" ++ [c_nl])%list).
(** The daemon is there, or there can be none: the kernel has no auditing, nobody listens, or an ordinary user may not ask. *)
Definition audited (A : audit) : Prop :=
  (a_open A = false /\ a_absent A = true) \/
  (a_open A = true /\ (a_request A = -111 \/ a_request A = -1 /\ a_uid A <> 0)) \/
  (a_open A = true /\ 0 < a_request A /\ exists i pid, (i < 30)%nat /\ a_reply A i = Status pid /\ pid <> 0 /\ forall j, (j < i)%nat -> a_reply A j = Nothing \/ a_reply A j = Else).
Definition required (lib : bool) (args : list cstr) : Prop := lib = true /\ In (lit "require_auditd") args.

(** ** Facts *)
Lemma dec_len : forall fuel k n acc, 0 <= n < 10 ^ Z.of_nat (S k) -> (length (dec_loop fuel n acc) <= S k + length acc)%nat.
Proof.
  induction fuel as [|fuel IH]; intros k n acc B; cbn [dec_loop]; [lia|]. destruct (Z.eqb_spec (n / 10) 0) as [E|E]; [cbn [length]; lia|].
  destruct k as [|k]; [exfalso; apply E; apply Z.div_small; change (10 ^ Z.of_nat 1) with 10 in B; lia|].
  specialize (IH k (n / 10) (chr (48 + Z.to_nat (n mod 10)) :: acc)). cbn [length] in *. rewrite Nat2Z.inj_succ, Z.pow_succ_r in B by lia.
  assert (0 <= n / 10 < 10 ^ Z.of_nat (S k)) by (split; [apply Z.div_pos; lia|apply Z.div_lt_upper_bound; [lia|apply B]]). lia.
Qed.
Lemma uid_len : forall u, 0 <= u < 2 ^ 32 -> (length (decimal u) <= 10)%nat.
Proof. intros u B. pose proof (dec_len (S (Z.to_nat (Z.log2 u))) 9 u []) as L. cbn [length] in L. unfold decimal. assert (2 ^ 32 < 10 ^ Z.of_nat 10) by reflexivity. lia. Qed.
Lemma failure_iff : forall m, (forall t, m = Some t -> ~ In NUL t) -> (failure m = PAM_IGNORE <-> contained m) /\ (failure m = PAM_SESSION_ERR \/ failure m = PAM_IGNORE).
Proof.
  intros [t|] NN; cbn [failure].
  2: { split; [split; [discriminate|intros (t & E & _); discriminate]|left; reflexivity]. }
  set (h := (lit "         0          0 4294967295" ++ [c_nl])%list). assert (EH : host_uid_map = (h ++ [NUL])%list) by reflexivity. assert (LH : length h = 33%nat) by reflexivity.
  specialize (NN t eq_refl).
  destruct t as [|c t]; [cbn; split; [split; [intros _; exists []; auto|reflexivity]|right; reflexivity]|].
  destruct (firstn (length host_uid_map) (c :: t)) as [|c0 t0] eqn:EF; [discriminate|]. rewrite <- EF. clear c0 t0 EF. remember (c :: t) as s eqn:ES. assert (NE : s <> []) by (subst s; discriminate). clear ES c t.
  destruct (streq _ _) eqn:E.
  - split; [|left; reflexivity]. split; [discriminate|]. intros (t & ET & [->|N]); [injection ET as ->; congruence|]. injection ET as <-. exfalso. apply streq_eq in E. rewrite EH in E. rewrite app_length, LH in E. cbn [length] in E. change (33 + 1)%nat with 34%nat in E.
    destruct (Nat.le_gt_cases (length s) 33) as [G|G].
    + rewrite firstn_all2 in E by lia. rewrite firstn_app in E. replace (length s - length h)%nat with 0%nat in E by lia. cbn [firstn] in E. rewrite app_nil_r in E. apply (N (skipn (length s) h)). rewrite E at 1. apply firstn_skipn.
    + apply NN. rewrite <- (firstn_skipn 34 s). apply in_or_app. left. rewrite firstn_length_le in E by lia. rewrite E. cbv. tauto.
  - split; [|right; reflexivity]. split; [intros _|reflexivity]. exists s. split; [reflexivity|]. right. intros x X. apply not_true_iff_false in E. apply E, streq_eq. rewrite EH. unfold h. rewrite <- X.
    assert (G : (length s <= 33)%nat) by (apply (f_equal (@length ascii)) in X; rewrite app_length in X; change (length (lit "         0          0 4294967295" ++ [c_nl])) with 33%nat in X; lia).
    rewrite firstn_all2 by (rewrite !app_length; cbn; lia). rewrite <- app_assoc, firstn_app, firstn_all, Nat.sub_diag. cbn [firstn]. rewrite app_nil_r. reflexivity.
Qed.
Lemma await_spec : forall A n i, match await A i n with
  | Some pid => exists k, (i <= k < i + n)%nat /\ a_reply A k = Status pid /\ forall j, (i <= j < k)%nat -> a_reply A j = Nothing \/ a_reply A j = Else
  | None => forall k pid, (i <= k < i + n)%nat -> (forall j, (i <= j < k)%nat -> a_reply A j = Nothing \/ a_reply A j = Else) -> a_reply A k <> Status pid
  end.
Proof.
  intros A n. induction n as [|n IH]; intro i; cbn [await]; [intros; lia|].
  assert (GO : a_reply A i = Nothing \/ a_reply A i = Else -> match await A (S i) n with
    | Some pid => exists k, (i <= k < i + S n)%nat /\ a_reply A k = Status pid /\ forall j, (i <= j < k)%nat -> a_reply A j = Nothing \/ a_reply A j = Else
    | None => forall k pid, (i <= k < i + S n)%nat -> (forall j, (i <= j < k)%nat -> a_reply A j = Nothing \/ a_reply A j = Else) -> a_reply A k <> Status pid end).
  { intro R. specialize (IH (S i)). destruct (await A (S i) n) as [pid|].
    - destruct IH as (k & K1 & K2 & K3). exists k. split; [lia|]. split; [exact K2|]. intros j J. destruct (Nat.eq_dec j i) as [->|NE]; [exact R|apply K3; lia].
    - intros k pid K1 K2. destruct (Nat.eq_dec k i) as [->|NE]; [destruct R; congruence|]. apply IH; [lia|]. intros j J. apply K2. lia. }
  destruct (a_reply A i) eqn:R.
  - apply GO. auto.
  - intros k pid0 K1 K2 K3. destruct (Nat.eq_dec k i) as [->|NE]; [congruence|]. destruct (K2 i ltac:(lia)); congruence.
  - exists i. split; [lia|]. split; [exact R|intros; lia].
  - apply GO. auto.
Qed.
(** The daemon is asked thirty times at most. *)
Theorem auditd_accepted : forall A, (check_auditd A = PAM_SUCCESS <-> audited A) /\ (check_auditd A = PAM_SUCCESS \/ check_auditd A = PAM_SESSION_ERR).
Proof.
  intro A. unfold check_auditd, audited. destruct (a_open A) eqn:O; cbn [negb].
  2: { destruct (a_absent A); (split; [|auto]); (split; [try discriminate; auto|intros [(_ & X)|[(X & _)|(X & _)]]; congruence]). }
  assert (R : (exists pid, (if 0 <? a_request A then await A 0 30 else None) = Some pid) \/ (if 0 <? a_request A then await A 0 30 else None) = None) by (destruct (if 0 <? a_request A then await A 0 30 else None); eauto).
  pose proof (await_spec A 30 0) as S. destruct R as [(pid & R)|R]; rewrite R.
  - destruct (Z.ltb_spec 0 (a_request A)) as [P|P]; [|discriminate]. rewrite R in S. destruct S as (k & K1 & K2 & K3). destruct (Z.eqb_spec pid 0) as [Q|Q].
    + split; [|auto]. split; [discriminate|]. intros [(X & _)|[(_ & [X|(X & _)])|(_ & _ & i & p & I1 & I2 & I3 & I4)]]; [discriminate|lia|lia|]. exfalso. destruct (Nat.lt_trichotomy i k) as [T|[->|T]].
      * destruct (K3 i ltac:(lia)); congruence.
      * congruence.
      * destruct (I4 k T); congruence.
    + split; [|auto]. split; [intros _|reflexivity]. right. right. split; [reflexivity|]. split; [exact P|]. exists k, pid. split; [lia|]. split; [exact K2|]. split; [exact Q|]. intros j J. apply K3. lia.
  - assert (NO : 0 < a_request A -> forall i pid, (i < 30)%nat -> a_reply A i = Status pid -> (forall j, (j < i)%nat -> a_reply A j = Nothing \/ a_reply A j = Else) -> False).
    { intros P i pid I1 I2 I3. rewrite (proj2 (Z.ltb_lt 0 (a_request A)) P) in R. rewrite R in S. apply (S i pid ltac:(lia)); [|exact I2]. intros j J. apply I3. lia. }
    unfold ECONNREFUSED, EPERM. change (- (111)) with (-111). change (- (1)) with (-1). destruct (Z.eqb_spec (a_request A) (-111)) as [E1|E1]; [split; [|auto]; split; [intros _; right; left; auto|reflexivity]|].
    destruct (Z.eqb_spec (a_request A) (-1)) as [E2|E2]; cbn [andb]; [destruct (Z.eqb_spec (a_uid A) 0) as [E3|E3]; cbn [negb]|].
    + split; [|auto]. split; [discriminate|]. intros [(X & _)|[(_ & [X|(_ & X)])|(_ & X & _)]]; [discriminate|lia|contradiction|lia].
    + split; [|auto]. split; [intros _; right; left; auto|reflexivity].
    + split; [|auto]. split; [discriminate|]. intros [(X & _)|[(_ & [X|(X & _)])|(_ & X & i & pid & I1 & I2 & _ & I3)]]; [discriminate|lia|lia|]. exfalso. exact (NO X i pid I1 I2 I3).
Qed.
Lemma set_spec : forall E uid, 0 <= uid < 2 ^ 32 -> (forall t, e_map E = Some t -> ~ In NUL t) ->
  (fst (set_loginuid E uid) = PAM_SUCCESS /\ snd (set_loginuid E uid) = Text (decimal uid)) \/
  (fst (set_loginuid E uid) = PAM_IGNORE /\ (e_file E = NotThere \/ contained (e_map E))) \/
  (fst (set_loginuid E uid) = PAM_SESSION_ERR /\ e_file E <> NotThere /\ ~ contained (e_map E) /\ (e_file E = NotPossible \/ e_seek E = false \/ e_trunc E = false \/ (e_room E < length (decimal uid))%nat)).
Proof.
  intros E uid B NN. destruct (failure_iff (e_map E) NN) as (FI & FC). pose proof (uid_len uid B) as UL. unfold set_loginuid.
  destruct (e_file E) as [| |t]; [right; left; auto| |].
  - destruct FC as [X|X]; [right; right; cbn [fst]; rewrite X; repeat split; auto; try discriminate; intro Y; apply FI in Y; congruence|right; left; cbn [fst]; split; [exact X|right; apply FI, X]].
  - assert (BAD : e_seek E = false \/ e_trunc E = false \/ (e_room E < length (decimal uid))%nat -> (failure (e_map E) = PAM_IGNORE /\ (Text t = NotThere \/ contained (e_map E))) \/ (failure (e_map E) = PAM_SESSION_ERR /\ Text t <> NotThere /\ ~ contained (e_map E) /\ (Text t = NotPossible \/ e_seek E = false \/ e_trunc E = false \/ (e_room E < length (decimal uid))%nat))).
    { intro W. destruct FC as [X|X]; [right|left]; [repeat split; auto; try discriminate; intro Y; apply FI in Y; congruence|split; [exact X|right; apply FI, X]]. }
    destruct (e_read E && streq (firstn 24 t) (decimal uid)) eqn:R.
    + left. split; [reflexivity|]. cbn [snd]. apply andb_true_iff in R. destruct R as (_ & R). apply streq_eq in R. rewrite <- R. f_equal. symmetry. apply firstn_all2. apply (f_equal (@length ascii)) in R. rewrite firstn_length in R. lia.
    + destruct (e_seek E) eqn:SK; cbn [negb]; [|right; apply BAD; auto]. destruct (e_trunc E) eqn:TR; cbn [negb]; [|right; apply BAD; auto]. destruct (Nat.leb_spec (length (decimal uid)) (e_room E)) as [G|G]; cbn [fst snd].
      * left. split; [reflexivity|]. rewrite firstn_all2 by exact G. reflexivity.
      * right. apply BAD. auto.
Qed.
(** Success: the login uid is that of the user, written in decimal, and a daemon that is required is there. *)
Theorem loginuid_set : forall lib E A args f, (forall u n, e_uid E u = Some n -> 0 <= n < 2 ^ 32) -> (forall t, e_map E = Some t -> ~ In NUL t) -> pam_loginuid lib E A args = (PAM_SUCCESS, f) ->
  (exists u n, e_user E = Some u /\ e_uid E u = Some n /\ f = Text (decimal n)) /\ (required lib args -> audited A).
Proof.
  intros lib E A args f UB NN H. unfold pam_loginuid in H. destruct (e_user E) as [u|]; [|discriminate]. destruct (e_uid E u) as [n|] eqn:EN; [|discriminate].
  destruct (set_spec E n (UB u n EN) NN) as [(S1 & S2)|[(S1 & _)|(S1 & _)]]; destruct (set_loginuid E n) as (ret, f0); cbn [fst snd] in *; subst ret; cbn [Z.eqb orb] in H.
  - assert (RQ : lib && existsb (streq (lit "require_auditd")) args = true <-> required lib args).
    { unfold required. rewrite andb_true_iff, existsb_exists. split; intros (X & Y); (split; [exact X|]); [destruct Y as (w & W & Y); apply streq_eq in Y; subst w; exact W|exists (lit "require_auditd"); split; [exact Y|reflexivity]]. }
    destruct (lib && existsb (streq (lit "require_auditd")) args).
    + destruct (Z.eqb_spec (check_auditd A) PAM_SUCCESS) as [C|C]; cbn [negb] in H; [|injection H; intros; congruence]. injection H as <-. split; [eauto 10|intros _; apply auditd_accepted, C].
    + injection H as <-. split; [eauto 10|]. intro R. apply RQ in R. discriminate.
  - destruct (lib && existsb (streq (lit "require_auditd")) args); [destruct (negb (check_auditd A =? PAM_SUCCESS)) eqn:X; [apply negb_true_iff, Z.eqb_neq in X; injection H; intros; congruence|discriminate]|discriminate].
  - discriminate.
Qed.
(** The other results. *)
Theorem loginuid_not_set : forall lib E A args, (forall u n, e_uid E u = Some n -> 0 <= n < 2 ^ 32) -> (forall t, e_map E = Some t -> ~ In NUL t) -> fst (pam_loginuid lib E A args) <> PAM_SUCCESS ->
  (fst (pam_loginuid lib E A args) = PAM_IGNORE /\ (e_file E = NotThere \/ contained (e_map E)) /\ (required lib args -> audited A)) \/
  (fst (pam_loginuid lib E A args) = PAM_SESSION_ERR /\
    (e_user E = None \/ (exists u, e_user E = Some u /\ e_uid E u = None) \/ (required lib args /\ ~ audited A) \/
     (e_file E <> NotThere /\ ~ contained (e_map E) /\ exists u n, e_user E = Some u /\ e_uid E u = Some n /\ (e_file E = NotPossible \/ e_seek E = false \/ e_trunc E = false \/ (e_room E < length (decimal n))%nat)))).
Proof.
  intros lib E A args UB NN. unfold pam_loginuid. destruct (e_user E) as [u|]; [|right; auto]. destruct (e_uid E u) as [n|] eqn:EN; [|right; split; [reflexivity|right; left; eauto]].
  assert (RQ : lib && existsb (streq (lit "require_auditd")) args = true <-> required lib args).
  { unfold required. rewrite andb_true_iff, existsb_exists. split; intros (X & Y); (split; [exact X|]); [destruct Y as (w & W & Y); apply streq_eq in Y; subst w; exact W|exists (lit "require_auditd"); split; [exact Y|reflexivity]]. }
  destruct (auditd_accepted A) as (AA & AC).
  destruct (set_spec E n (UB u n EN) NN) as [(S1 & S2)|[(S1 & S2)|(S1 & S2 & S3 & S4)]]; destruct (set_loginuid E n) as (ret, f0); cbn [fst snd] in *; subst ret; cbn [Z.eqb orb].
  - destruct (lib && existsb (streq (lit "require_auditd")) args); cbn [fst]; [|congruence]. destruct (Z.eqb_spec (check_auditd A) PAM_SUCCESS) as [C|C]; cbn [negb]; [congruence|]. intros _. destruct AC as [X|X]; [congruence|]. right. split; [exact X|]. right. right. left. split; [apply RQ; reflexivity|]. intro Y. apply AA in Y. congruence.
  - intros _. destruct (lib && existsb (streq (lit "require_auditd")) args); cbn [fst].
    + destruct (Z.eqb_spec (check_auditd A) PAM_SUCCESS) as [C|C]; cbn [negb]; [left; split; [reflexivity|]; split; [exact S2|]; intros _; apply AA, C|]. destruct AC as [X|X]; [congruence|]. right. split; [exact X|]. right. right. left. split; [apply RQ; reflexivity|]. intro Y. apply AA in Y. congruence.
    + left. split; [reflexivity|]. split; [exact S2|]. intro R. apply RQ in R. discriminate.
  - intros _. right. cbn [fst]. split; [reflexivity|]. right. right. right. split; [exact S2|]. split; [exact S3|]. exists u, n. auto.
Qed.

(** ** Examples and what does not hold *)
Definition host : option (list ascii) := Some (lit "         0          0 4294967295" ++ [c_nl])%list.
Definition world (m : option (list ascii)) (f : opened) (room : nat) : env := mkEnv (Some (lit "bob")) (fun u => if streq u (lit "bob") then Some 1000 else None) m f true true true room.
Definition daemon (pid : Z) : audit := mkAudit true false 5 (fun i => if (i =? 3)%nat then Status pid else Nothing) 0.
Example loginuid_example :
  pam_loginuid true (world host (Text (lit "4294967295")) 24) (daemon 77) [lit "require_auditd"] = (PAM_SUCCESS, Text (lit "1000")) /\
  pam_loginuid true (world host (Text (lit "1000")) 0) (daemon 0) [lit "require_auditd"] = (PAM_SESSION_ERR, Text (lit "1000")) /\
  pam_loginuid false (world host (Text (lit "10000")) 0) (daemon 0) [lit "require_auditd"] = (PAM_SESSION_ERR, Text []) /\
  pam_loginuid true (world (Some (lit "         0     100000      65536" ++ [c_nl])%list) (Text (lit "0")) 0) (daemon 1) [] = (PAM_IGNORE, Text []) /\
  pam_loginuid true (world host NotThere 0) (daemon 1) [] = (PAM_IGNORE, NotThere) /\
  (forall u n, e_uid (world host NotThere 0) u = Some n -> 0 <= n < 2 ^ 32) /\ audited (daemon 77) /\ ~ contained host.
Proof.
  repeat (split; [reflexivity|]). split; [intros u n; unfold world; cbn [e_uid]; destruct (streq u (lit "bob")); [intro E; assert (n = 1000) by congruence; lia|discriminate]|]. split.
  - right. right. split; [reflexivity|]. split; [reflexivity|]. exists 3%nat, 77. split; [lia|]. split; [reflexivity|]. split; [discriminate|]. intros j J. left. destruct j as [|[|[|j]]]; [reflexivity|reflexivity|reflexivity|lia].
  - intros (t & E & [->|N]); [discriminate|]. assert (ET : t = (lit "         0          0 4294967295" ++ [c_nl])%list) by (unfold host in E; congruence). subst t. apply (N []). reflexivity.
Qed.
(** A session can go on as if nothing was wrong with the login uid of another user: PAM_IGNORE in a user namespace. *)
Theorem other_loginuid_refuted : exists E A args, pam_loginuid true E A args = (PAM_IGNORE, Text (lit "1001")) /\ e_user E = Some (lit "bob") /\ e_uid E (lit "bob") = Some 1000 /\ e_file E = Text (lit "1001").
Proof.
  exists (mkEnv (Some (lit "bob")) (fun u => if streq u (lit "bob") then Some 1000 else None) (Some (lit "         0     100000      65536" ++ [c_nl])%list) (Text (lit "1001")) true true false 24), (daemon 1), []. repeat split; reflexivity.
Qed.

Print Assumptions loginuid_set.
Print Assumptions loginuid_not_set.
Print Assumptions auditd_accepted.
Print Assumptions other_loginuid_refuted.
