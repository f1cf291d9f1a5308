(** C116: the audit trail of libpam. *)
From Coq Require Import String Ascii List Arith ZArith Lia Bool.
From Verif Require Import Base Audit_Model.
Import ListNotations.
Local Open Scope Z_scope.

(** * Specification *)

(** The modules that granted, in order. *)
Definition Granting (hs : list handler) : list cstr := map h_name (filter h_grantor hs).
Definition comma : ascii := ","%char.
Fixpoint joined (l : list cstr) : cstr := match l with [] => [] | [a] => a | a :: t => (a ++ comma :: joined t)%list end.
(** Reading such a list: cut at each comma. *)
Fixpoint cut (s : cstr) : list cstr :=
  match s with
  | [] => [[]]
  | c :: t => if Ascii.eqb c comma then [] :: cut t else match cut t with [] => [[c]] | a :: r => (c :: a) :: r end
  end.
Definition proper (n : cstr) : Prop := n <> [] /\ n <> lit "?" /\ ~ In comma n.
(** What is recorded for a call with valid flags. *)
Inductive Kind : Z -> Z -> cstr -> kind -> Prop :=
| K_auth f : Kind 1 f (lit "authentication") UserAuth
| K_establish f : Z.testbit f 1 = true -> Kind 2 f (lit "setcred") CredAcq
| K_refresh f : Z.testbit f 1 = false -> Z.testbit f 3 = true \/ Z.testbit f 4 = true -> Kind 2 f (lit "setcred") CredRefr
| K_delete f : Z.testbit f 1 = false -> Z.testbit f 3 = false -> Z.testbit f 4 = false -> Z.testbit f 2 = true -> Kind 2 f (lit "setcred") CredDisp
| K_cred f : Z.testbit f 1 = false -> Z.testbit f 3 = false -> Z.testbit f 4 = false -> Z.testbit f 2 = false -> Kind 2 f (lit "setcred") UserErr
| K_account f : Kind 3 f (lit "accounting") UserAcct
| K_open f : Kind 4 f (lit "session_open") UserStart
| K_close f : Kind 5 f (lit "session_close") UserEnd
| K_password f : Kind 6 f (lit "chauthtok") UserChauthtok.
(** Every call is to be recorded except a preliminary check of passwords that succeeds. *)
Definition Audited (choice retval flags : Z) : Prop := ~ (choice = 6 /\ Z.testbit flags 13 = false /\ retval = 0).
(** The name recorded: never that of an unknown user, it may be a password typed too early. *)
Definition named (It : items) (retval : Z) : cstr := if retval =? 10 then lit "?" else match i_user It with Some u => u | None => lit "?" end.

(** * Facts *)

Lemma on_bit : forall v k, 0 <= k -> on v (2 ^ k) = Z.testbit v k.
Proof.
  intros v k Hk. unfold on. destruct (Z.testbit v k) eqn:T.
  - destruct (Z.eqb_spec (Z.land v (2 ^ k)) 0) as [E|]; [|reflexivity]. assert (X : Z.testbit (Z.land v (2 ^ k)) k = true) by (rewrite Z.land_spec, T, Z.pow2_bits_true by exact Hk; reflexivity).
    rewrite E, Z.bits_0 in X. discriminate.
  - replace (Z.land v (2 ^ k)) with 0; [reflexivity|]. symmetry. apply Z.bits_inj'. intros n Hn. rewrite Z.land_spec, Z.bits_0. destruct (Z.eq_dec n k) as [->|D]; [now rewrite T|].
    rewrite Z.pow2_bits_false by congruence. apply andb_false_r.
Qed.
Lemma on_2 : forall v, on v 2 = Z.testbit v 1. Proof. intros v. exact (on_bit v 1 ltac:(lia)). Qed.
Lemma on_4 : forall v, on v 4 = Z.testbit v 2. Proof. intros v. exact (on_bit v 2 ltac:(lia)). Qed.
Lemma on_8 : forall v, on v 8 = Z.testbit v 3. Proof. intros v. exact (on_bit v 3 ltac:(lia)). Qed.
Lemma on_16 : forall v, on v 16 = Z.testbit v 4. Proof. intros v. exact (on_bit v 4 ltac:(lia)). Qed.
Lemma on_8192 : forall v, on v 8192 = Z.testbit v 13. Proof. intros v. exact (on_bit v 13 ltac:(lia)). Qed.

Lemma text_rest : forall hs, list_text false hs = match Granting hs with [] => [] | l => comma :: joined l end.
Proof.
  unfold Granting. induction hs as [|h t IH]; [reflexivity|]. cbn [list_text filter]. destruct (h_grantor h); [|exact IH]. rewrite IH. cbn [map joined app]. destruct (map h_name (filter h_grantor t)); cbn; [now rewrite app_nil_r | reflexivity].
Qed.
Lemma text_joined : forall hs, list_text true hs = joined (Granting hs).
Proof.
  induction hs as [|h t IH]; [reflexivity|]. unfold Granting in *. cbn [list_text filter]. destruct (h_grantor h); [|exact IH]. rewrite text_rest. unfold Granting. cbn [map joined app].
  destruct (map h_name (filter h_grantor t)); [now rewrite app_nil_r | reflexivity].
Qed.
Lemma size_sum : forall hs, list_size hs = fold_right (fun n k => (length n + 1 + k)%nat) 0%nat (Granting hs).
Proof. unfold Granting. induction hs as [|h t IH]; [reflexivity|]. cbn [list_size filter]. destruct (h_grantor h); cbn [map fold_right]; rewrite IH; lia. Qed.
Lemma size_0 : forall hs, list_size hs = 0%nat <-> Granting hs = [].
Proof. intros hs. rewrite size_sum. destruct (Granting hs); cbn [fold_right]; split; intros H; (reflexivity || lia || discriminate). Qed.
Lemma audited_true : forall choice retval flags, Audited choice retval flags <-> negb (choice =? 6) || on flags 8192 || negb (retval =? 0) = true.
Proof.
  intros. rewrite on_8192. unfold Audited. destruct (Z.eqb_spec choice 6), (Z.testbit flags 13), (Z.eqb_spec retval 0); cbn; split; intros H; try reflexivity; try (intros (? & ? & ?); congruence); try discriminate.
  exfalso. apply H. auto.
Qed.
Lemma kind_of : forall choice flags, 1 <= choice <= 6 -> exists m k, action_kind choice flags = (m, k, true) /\ Kind choice flags m k.
Proof.
  intros choice flags H. assert (C : choice = 1 \/ choice = 2 \/ choice = 3 \/ choice = 4 \/ choice = 5 \/ choice = 6) by lia.
  destruct C as [-> | [-> | [-> | [-> | [-> | ->]]]]]; unfold action_kind; cbn [Z.eqb Pos.eqb].
  2: { rewrite on_2, on_8, on_16, on_4. destruct (Z.testbit flags 1) eqn:B1; [repeat eexists; now constructor|].
       destruct (Z.testbit flags 3) eqn:B3; [repeat eexists; constructor; auto|]. destruct (Z.testbit flags 4) eqn:B4; [repeat eexists; constructor; auto|]. cbn [orb].
       destruct (Z.testbit flags 2) eqn:B2; repeat eexists; constructor; auto. }
  all: repeat eexists; constructor.
Qed.
Lemma writelog_logged : forall E It k m g r s, logged (snd (writelog E It k m g r s)) = true.
Proof. intros. unfold writelog. destruct (e_text E); cbv zeta; destruct (_ <? 0); try reflexivity; destruct (_ =? - EPERM); try reflexivity; destruct (negb _); reflexivity. Qed.
Lemma writelog_sent : forall E It k m g r s, e_text E = true -> sent (snd (writelog E It k m g r s)) =
  (sent s ++ [(mkRec k (lit "PAM:" ++ m ++ match g with Some g => lit " grantors=" ++ g | None => [] end) (named It r) (i_host It) (i_tty It) (r =? 0), e_rc E)])%list.
Proof.
  intros E It k m g r s H. unfold writelog, named. rewrite H. cbv zeta.
  replace (if r =? 10 then lit "?" else match i_user It with Some u => u | None => lit "?" end) with (match i_user It with Some u => if r =? 10 then lit "?" else u | None => lit "?" end) by (destruct (i_user It), (r =? 10); reflexivity).
  destruct (e_rc E <? 0); [|reflexivity]. destruct (e_rc E =? - EPERM); [reflexivity|]. destruct (negb _); reflexivity.
Qed.
Lemma writelog_rc : forall E It k m g r s, fst (writelog E It k m g r s) = let rc := if e_text E then e_rc E else -12 in if rc =? -1 then 0 else rc.
Proof.
  intros. unfold writelog. cbv zeta. destruct (e_text E); [|destruct (negb _); reflexivity].
  destruct (Z.eqb_spec (e_rc E) (-1)) as [H|H].
  - rewrite H. reflexivity.
  - destruct (e_rc E <? 0); [|reflexivity]. change (- EPERM) with (-1). apply Z.eqb_neq in H. rewrite H. destruct (negb _); reflexivity.
Qed.

(** * Theorems *)

(** C116: the list of the granting modules has their names in order, and fits exactly into the memory for it; none is allocated if there is nobody. *)
Theorem trail_fits : forall hs, list_text true hs = joined (Granting hs) /\ (Granting hs <> [] -> S (length (list_text true hs)) = list_size hs) /\ (list_size hs = 0%nat <-> Granting hs = []).
Proof.
  intros hs. split; [apply text_joined|]. split; [|apply size_0]. rewrite text_joined, size_sum. induction (Granting hs) as [|a l IH]; intros H; [congruence|].
  destruct l as [|b l]; [cbn; lia|]. cbn [joined]. rewrite app_length. cbn [length]. specialize (IH ltac:(discriminate)). cbn [fold_right] in *. cbn [joined] in IH. lia.
Qed.
Lemma cut_name : forall a, ~ In comma a -> forall s, cut (a ++ comma :: s) = a :: cut s.
Proof.
  induction a as [|c a IH]; intros N s; cbn [app cut]; [now rewrite Ascii.eqb_refl|].
  destruct (Ascii.eqb_spec c comma) as [->|D]; [exfalso; apply N; now left|]. rewrite IH; [reflexivity|]. intros H. apply N. now right.
Qed.
Lemma cut_last : forall a, ~ In comma a -> cut a = [a].
Proof.
  induction a as [|c a IH]; intros N; [reflexivity|]. cbn [cut]. destruct (Ascii.eqb_spec c comma) as [->|D]; [exfalso; apply N; now left|]. rewrite IH; [reflexivity|]. intros H. apply N. now right.
Qed.
(** C116: the list can be read back, and is never the question mark that stands for none, if names are as libpam takes them and have no comma. *)
Theorem trail_readable : forall hs, Granting hs <> [] -> Forall proper (Granting hs) -> cut (list_text true hs) = Granting hs /\ list_text true hs <> lit "?".
Proof.
  intros hs N F. rewrite text_joined. assert (C : cut (joined (Granting hs)) = Granting hs).
  { revert N. induction F as [|a l (Ha & _ & Hc) F IH]; intros N; [congruence|]. destruct l as [|b l]; [apply cut_last; exact Hc|]. change (joined (a :: b :: l)) with (a ++ comma :: joined (b :: l))%list.
    rewrite (cut_name _ Hc). f_equal. apply IH. discriminate. }
  split; [exact C|]. intros H. rewrite H in C. change (cut (lit "?")) with [lit "?"] in C. rewrite <- C in F. inversion F as [|x l (_ & X & _)]. now apply X.
Qed.
(** C116: what one call records: one record, with type, message, granting modules, name, host, terminal and outcome. *)
Theorem trail_record : forall E It choice retval flags hs s, e_open E = Opens -> e_text E = true -> Audited choice retval flags -> 1 <= choice <= 6 ->
  exists m k g final, Kind choice flags m k /\
  sent (snd (dispatched E It choice retval flags hs s)) = (sent s ++ [(mkRec k (lit "PAM:" ++ m ++ lit " grantors=" ++ g) (named It final) (i_host It) (i_tty It) (final =? 0), e_rc E)])%list /\
  (final = retval /\ (retval = 0 -> Granting hs = [] \/ e_list E = true) \/ final = 4 /\ retval = 0 /\ Granting hs <> [] /\ e_list E = false) /\
  g = (if final =? 0 then match Granting hs with [] => lit "?" | l => joined l end else lit "?").
Proof.
  intros E It choice retval flags hs s Ho Ht A C. apply audited_true in A. unfold dispatched. rewrite A. unfold auditlog. rewrite Ho. destruct (kind_of choice flags C) as (m & k & -> & K). exists m, k.
  unfold list_grantors. destruct (Z.eqb_spec retval 0) as [->|R].
  - destruct (list_size hs) as [|n] eqn:L.
    + apply size_0 in L. exists (lit "?"), 0. split; [exact K|]. split; [destruct (writelog E It k m (Some (lit "?")) 0 s) as [rc s'] eqn:W; cbn [snd]; change s' with (snd (rc, s')); rewrite <- W; now apply writelog_sent|].
      split; [left; auto|]. rewrite L. reflexivity.
    + assert (G : Granting hs <> []) by (intros H; apply size_0 in H; lia). destruct (e_list E) eqn:M.
      * exists (list_text true hs), 0. split; [exact K|]. split; [match goal with |- context [let (_, _) := ?x in _] => destruct x as [rc s'] eqn:W end; cbn [snd]; change s' with (snd (rc, s')); rewrite <- W; now apply writelog_sent|].
        split; [left; auto|]. rewrite text_joined. destruct (Granting hs); [congruence | reflexivity].
      * exists (lit "?"), 4. split; [exact K|]. split; [match goal with |- context [let (_, _) := ?x in _] => destruct x as [rc s'] eqn:W end; cbn [snd]; change s' with (snd (rc, s')); rewrite <- W; now apply writelog_sent|].
        split; [right; auto | reflexivity].
  - exists (lit "?"), retval. split; [exact K|]. split; [match goal with |- context [let (_, _) := ?x in _] => destruct x as [rc s'] eqn:W end; cbn [snd]; change s' with (snd (rc, s')); rewrite <- W; now apply writelog_sent|].
    split; [left; split; [reflexivity | intros; contradiction]|]. apply Z.eqb_neq in R. now rewrite R.
Qed.
(** C116: a record that was taken agrees with the result of the call; the result is that of the modules or a system error, which it is if the record was refused. *)
Theorem trail_agrees : forall E It choice retval flags hs s, let (result, s') := dispatched E It choice retval flags hs s in
  (result = retval \/ result = 4) /\
  (forall r rc, sent s' = (sent s ++ [(r, rc)])%list -> (0 <= rc -> r_ok r = true <-> result = 0) /\ (rc < -1 -> result = 4)) /\
  (e_open E = Opens -> Audited choice retval flags -> e_text E = false -> result = 4) /\ (e_open E = Broken -> Audited choice retval flags -> result = 4).
Proof.
  intros E It choice retval flags hs s. unfold dispatched. destruct (negb (choice =? 6) || on flags 8192 || negb (retval =? 0)) eqn:A.
  2: { split; [auto|]. split; [intros r rc H; exfalso; apply (f_equal (@length _)) in H; rewrite app_length in H; cbn in H; lia|]. split; intros _ X; apply audited_true in X; congruence. }
  unfold auditlog. destruct (e_open E) eqn:O.
  2, 3: split; [auto|]; split; [intros r rc H; exfalso; apply (f_equal (@length _)) in H; rewrite app_length in H; cbn in H; lia|]; split; (discriminate || auto).
  destruct (action_kind choice flags) as [[m k] known]. destruct (list_grantors E hs (if known then retval else 4)) as [fine g].
  set (fin := if fine then if known then retval else 4 else 4). assert (F : fin = retval \/ fin = 4) by (unfold fin; destruct fine, known; auto).
  match goal with |- context [let (_, _) := writelog _ _ _ _ ?g _ _ in _] => pose proof (writelog_rc E It k m g fin s) as R; pose proof (writelog_sent E It k m g fin s) as T; destruct (writelog E It k m g fin s) as [rc s'] eqn:W end.
  cbn [fst snd] in *. cbv zeta in R. split; [destruct (rc <? 0); auto|]. split; [|split; [intros _ _ X; rewrite X in R; cbn in R; subst rc; reflexivity | discriminate]].
  intros r rc0 H. destruct (e_text E) eqn:X.
  - rewrite (T eq_refl) in H. apply app_inv_head in H. injection H as <- <-. cbn [r_ok]. split.
    + intros P. destruct (Z.eqb_spec (e_rc E) (-1)) as [Y|Y]; [lia|]. subst rc. destruct (Z.ltb_spec (e_rc E) 0); [lia|]. apply Z.eqb_eq.
    + intros P. destruct (Z.eqb_spec (e_rc E) (-1)) as [Y|Y]; [lia|]. subst rc. destruct (Z.ltb_spec (e_rc E) 0); [reflexivity | lia].
  - exfalso. cbn in R. subst rc. revert W. unfold writelog. rewrite X. cbv zeta. cbn [Z.ltb Z.opp ENOMEM EPERM Z.eqb Z.compare Pos.compare Pos.compare_cont Pos.eqb].
    rewrite app_nil_r. intros W. assert (S1 : sent s' = sent s) by (destruct (negb _) in W; injection W as <-; reflexivity). rewrite S1 in H. apply (f_equal (@length _)) in H. rewrite app_length in H. cbn in H. lia.
Qed.
(** C116: calls that are not to be recorded, and a kernel without audit, change nothing. *)
Theorem trail_skipped : forall E It choice retval flags hs s, ~ Audited choice retval flags \/ e_open E = Absent -> dispatched E It choice retval flags hs s = (retval, s).
Proof.
  intros E It choice retval flags hs s H. unfold dispatched. destruct (negb (choice =? 6) || on flags 8192 || negb (retval =? 0)) eqn:A; [|reflexivity].
  destruct H as [H | H]; [apply audited_true in A; contradiction|]. unfold auditlog. now rewrite H.
Qed.
(** The steps of a transaction that are to be recorded. *)
Definition recorded (x : step) : bool := match x with Call _ _ choice retval flags _ => negb ((choice =? 6) && negb (Z.testbit flags 13) && (retval =? 0)) | Note _ _ _ _ _ => true end.
Definition working (E : env) : Prop := e_open E = Opens /\ e_text E = true.
Definition env_of (x : step) : env := match x with Call E _ _ _ _ _ => E | Note E _ _ _ _ => E end.
Lemma auditlog_one : forall E It a r f hs s, working E -> logged (snd (auditlog E It a r f hs s)) = true /\ exists x, sent (snd (auditlog E It a r f hs s)) = (sent s ++ [x])%list.
Proof.
  intros E It a r f hs s (O & T). unfold auditlog. rewrite O. destruct (action_kind a f) as [[m k] known]. destruct (list_grantors E hs (if known then r else 4)) as [fine g].
  match goal with |- context [let (_, _) := ?w in _] => pose proof (writelog_logged E It k m (Some match g with Some g => g | None => lit "?" end) (if fine then if known then r else 4 else 4) s) as L;
    pose proof (writelog_sent E It k m (Some match g with Some g => g | None => lit "?" end) (if fine then if known then r else 4 else 4) s T) as W; destruct w as [rc s'] end.
  cbn [snd] in *. split; [exact L | eauto].
Qed.
Lemma act_one : forall x s, working (env_of x) -> if recorded x then logged (act s x) = true /\ length (sent (act s x)) = S (length (sent s)) else act s x = s.
Proof.
  intros [E It choice retval flags hs | E It n m r] s W; cbn [env_of recorded act] in *.
  - unfold dispatched. rewrite on_8192. replace (negb ((choice =? 6) && negb (Z.testbit flags 13) && (retval =? 0))) with (negb (choice =? 6) || Z.testbit flags 13 || negb (retval =? 0)) by (destruct (choice =? 6), (Z.testbit flags 13), (retval =? 0); reflexivity).
    destruct (negb (choice =? 6) || Z.testbit flags 13 || negb (retval =? 0)); [|reflexivity]. destruct (auditlog_one E It choice retval flags hs s W) as (L & x & ->). split; [exact L | rewrite app_length; cbn; lia].
  - unfold audit_write. destruct W as (O & T). rewrite O. pose proof (writelog_logged E It (Own n) m None r s) as L. pose proof (writelog_sent E It (Own n) m None r s T) as S1. destruct (writelog E It (Own n) m None r s) as [rc s']. cbn [snd] in *.
    split; [exact L|]. rewrite S1, app_length. cbn. lia.
Qed.
(** C116: no transaction is without a record: each step that is to be recorded has one, and if there is none, pam_end records an unknown user. *)
Theorem trail_complete : forall xs E It, Forall (fun x => working (env_of x)) xs -> working E -> let n := length (filter recorded xs) in
  length (sent (transaction xs E It)) = Nat.max 1 n /\
  (n = 0%nat -> sent (transaction xs E It) = [(mkRec UserErr (lit "PAM:bad_ident grantors=?") (lit "?") (i_host It) (i_tty It) false, e_rc E)]).
Proof.
  intros xs E It F W. cbv zeta. unfold transaction.
  assert (G : forall s, length (sent (fold_left act xs s)) = (length (sent s) + length (filter recorded xs))%nat /\ (length (filter recorded xs) = 0%nat -> fold_left act xs s = s) /\ (length (filter recorded xs) <> 0%nat \/ logged s = true -> logged (fold_left act xs s) = true)).
  { induction F as [|x xs Hx F IH]; intros s; cbn [fold_left filter]; [cbn; intuition lia|]. pose proof (act_one x s Hx) as A. destruct (recorded x); cbn [length].
    - destruct A as (A1 & A2). destruct (IH (act s x)) as (I1 & I2 & I3). split; [lia|]. split; [discriminate|]. intros _. apply I3. now right.
    - rewrite A. apply IH. }
  destruct (G start) as (G1 & G2 & G3). destruct (length (filter recorded xs)) as [|n] eqn:N.
  - rewrite (G2 eq_refl). unfold audit_end. cbn [logged start]. assert (X : sent (snd (auditlog E It (-2) 10 0 [] start)) = [(mkRec UserErr (lit "PAM:bad_ident grantors=?") (lit "?") (i_host It) (i_tty It) false, e_rc E)]).
    { unfold auditlog. destruct W as (O & T). rewrite O. cbn [action_kind Z.eqb Pos.eqb list_grantors]. pose proof (writelog_sent E It UserErr (lit "bad_ident") (Some (lit "?")) 10 start T) as Y.
      destruct (writelog E It UserErr (lit "bad_ident") (Some (lit "?")) 10 start) as [rc s']. exact Y. }
    rewrite X. split; reflexivity.
  - unfold audit_end. rewrite G3 by (left; discriminate). rewrite G1. cbn [start sent length]. split; [lia | discriminate].
Qed.
(** C116: the system log has a failure of the audit only when it is another one than the last; a failure for lack of privilege is not logged. *)
Theorem trail_alerts : forall xs E It, let l := alerts (transaction xs E It) in (forall before a b after, l = (before ++ a :: b :: after)%list -> a <> b) /\ Forall (fun a => 0 < a /\ a <> 1) l.
Proof.
  intros xs E It. cbv zeta.
  set (Inv := fun s => (forall before a b after, alerts s = (before ++ a :: b :: after)%list -> a <> b) /\ Forall (fun a => 0 < a /\ a <> 1) (alerts s) /\ (forall before a, alerts s = (before ++ [a])%list -> old_errno s = a)).
  assert (W : forall E It k m g r s, Inv s -> Inv (snd (writelog E It k m g r s))).
  { intros E0 It0 k m g r s V. unfold writelog. destruct (e_text E0); cbv zeta.
    all: match goal with |- context [if ?rc <? 0 then _ else _] => destruct (Z.ltb_spec rc 0) as [Neg|Pos]; [|exact V]; destruct (Z.eqb_spec rc (- EPERM)) as [Ep|Ep]; [exact V|]; destruct (Z.eqb_spec (- rc) (old_errno s)) as [Eo|Eo]; cbn [negb snd]; [exact V|] end.
    all: destruct V as (V1 & V2 & V3); split; [|split]; cbn [alerts old_errno].
    all: try (apply Forall_app; split; [exact V2|]; constructor; [unfold EPERM in Ep; lia | constructor]).
    all: try (intros before a H; apply app_inj_tail in H; now destruct H).
    all: intros before a b after H; destruct (@exists_last _ (b :: after) ltac:(discriminate)) as (l & z & Hl); rewrite Hl in H; change (a :: l ++ [z])%list with ((a :: l) ++ [z])%list in H; rewrite app_assoc in H; apply app_inj_tail in H; destruct H as (H & Hz);
      destruct l as [|y l]; cbn in Hl; injection Hl as -> Hl; [subst z; apply V3 in H; congruence | exact (V1 _ _ _ _ H)]. }
  assert (A : forall E It a r f hs s, Inv s -> Inv (snd (auditlog E It a r f hs s))).
  { intros E0 It0 a r f hs s V. unfold auditlog. destruct (e_open E0); [|exact V | exact V]. destruct (action_kind a f) as [[m k] known]. destruct (list_grantors E0 hs _) as [fine g].
    match goal with |- context [let (_, _) := writelog ?e ?i ?k ?m ?g ?r ?s in _] => pose proof (W e i k m g r s V) as X; destruct (writelog e i k m g r s) end. exact X. }
  assert (R : forall s, Inv s -> Inv (fold_left act xs s)).
  { induction xs as [|x xs IH]; intros s V; [exact V|]. cbn [fold_left]. apply IH. destruct x as [E0 It0 choice retval flags hs | E0 It0 n m r]; cbn [act].
    - unfold dispatched. match goal with |- context [if ?b then _ else _] => destruct b end; [now apply A | exact V].
    - unfold audit_write. destruct (e_open E0); [|exact V | exact V]. pose proof (W E0 It0 (Own n) m None r s V) as X. destruct (writelog E0 It0 (Own n) m None r s). exact X. }
  assert (V : Inv (transaction xs E It)).
  { unfold transaction, audit_end. assert (V0 : Inv start) by (split; [intros [|? [|? ?]] a b after H; discriminate|]; split; [constructor | intros [|? [|? ?]] a H; discriminate]). specialize (R start V0). destruct (logged _); [exact R | now apply A]. }
  destruct V as (V1 & V2 & _). auto.
Qed.
(** C116: a record of a module: its text without granting modules, and a result that says whether it was recorded. *)
Theorem trail_note : forall E It n m retval s, let (result, s') := audit_write E It n m retval s in
  match e_open E with
  | Opens => (result = 0 <-> e_text E = true /\ (0 <= e_rc E \/ e_rc E = -1)) /\ (result <> 0 -> result = 4) /\
             (e_text E = true -> sent s' = (sent s ++ [(mkRec (Own n) (lit "PAM:" ++ m) (named It retval) (i_host It) (i_tty It) (retval =? 0), e_rc E)])%list)
  | Absent => result = retval /\ s' = s
  | Broken => result = 4 /\ s' = s
  end.
Proof.
  intros E It n m retval s. unfold audit_write. destruct (e_open E); [|auto | auto]. pose proof (writelog_rc E It (Own n) m None retval s) as R. pose proof (writelog_sent E It (Own n) m None retval s) as T.
  destruct (writelog E It (Own n) m None retval s) as [rc s']. cbn [fst snd] in *. cbv zeta in R. rewrite app_nil_r in T. split; [|split; [destruct (rc <? 0); congruence | exact T]].
  destruct (e_text E); [|cbn in R; subst rc; cbn; split; [discriminate | intros (? & _); discriminate]]. destruct (Z.eqb_spec (e_rc E) (-1)) as [Y|Y]; subst rc.
  - cbn. split; auto.
  - destruct (Z.ltb_spec (e_rc E) 0); split; try discriminate; try lia; auto.
Qed.

(** Answers of an audit that works. *)
Definition fine : env := mkEnv Opens true true 1.
Definition ann : items := mkI (Some (lit "ann")) None (Some (lit "tty1")).
Definition two : list handler := [mkH (lit "pam_env") false; mkH (lit "pam_unix") true; mkH (lit "pam_group") true].
(** C116: refuted: a call that succeeds has been recorded: not if the process may not write records. *)
Theorem trail_privilege_refuted : exists E s', e_open E = Opens /\ dispatched E ann 1 0 0 two start = (0, s') /\ Forall (fun x => snd x < 0) (sent s').
Proof. exists (mkEnv Opens true true (-1)). eexists. split; [reflexivity|]. split; [reflexivity|]. repeat constructor. Qed.
(** C116: refuted: if nothing was recorded before, pam_end records something: not if memory was short before. *)
Theorem trail_end_refuted : exists E, sent (transaction [Call E ann 1 0 0 two] fine ann) = [].
Proof. exists (mkEnv Opens true false 1). reflexivity. Qed.
(** C116: refuted: the list always tells the modules: with a comma in a name it does not. *)
Theorem trail_comma_refuted : exists hs hs', Granting hs <> Granting hs' /\ list_text true hs = list_text true hs' /\ Forall (fun h => h_name h <> [] /\ h_name h <> lit "?") (hs ++ hs').
Proof. exists [mkH (lit "a,b") true], [mkH (lit "a") true; mkH (lit "b") true]. split; [discriminate|]. split; [reflexivity|]. repeat constructor; discriminate. Qed.

(** * Examples *)
Example trail_fits_example : list_text true two = lit "pam_unix,pam_group" /\ list_size two = 19%nat.
Proof. vm_compute. auto. Qed.
Example trail_readable_example : cut (list_text true two) = [lit "pam_unix"; lit "pam_group"].
Proof. apply (trail_readable two); [discriminate|]. repeat constructor; try discriminate; vm_compute; intuition discriminate. Qed.
Example trail_record_example : dispatched fine ann 2 0 8 two start = (0, mkSt true (-1) [(mkRec CredRefr (lit "PAM:setcred grantors=pam_unix,pam_group") (lit "ann") None (Some (lit "tty1")) true, 1)] []).
Proof. vm_compute. reflexivity. Qed.
Example trail_agrees_example : fst (dispatched (mkEnv Opens false true 1) ann 1 0 0 two start) = 4 /\ sent (snd (dispatched fine ann 1 10 0 two start)) = [(mkRec UserAuth (lit "PAM:authentication grantors=?") (lit "?") None (Some (lit "tty1")) false, 1)].
Proof. vm_compute. auto. Qed.
Example trail_skipped_example : dispatched fine ann 6 0 16384 two start = (0, start).
Proof. apply trail_skipped. left. intros H. apply H. auto. Qed.
Example trail_complete_example : length (sent (transaction [Call fine ann 1 0 0 two; Call fine ann 6 0 16384 two; Note fine ann 1100 (lit "faillock") 0] fine ann)) = 2%nat.
Proof. apply (trail_complete [Call fine ann 1 0 0 two; Call fine ann 6 0 16384 two; Note fine ann 1100 (lit "faillock") 0] fine ann); repeat constructor. Qed.
Example trail_alerts_example : let bad n := Call (mkEnv Opens true true n) ann 1 0 0 two in alerts (transaction [bad (-111); bad (-111); bad (-1); bad (-9); bad 5; bad (-9); bad (-111)] fine ann) = [111; 9; 111].
Proof. vm_compute. reflexivity. Qed.
Example trail_note_example : fst (audit_write fine ann 1100 (lit "faillock") 7 start) = 0 /\ fst (audit_write (mkEnv Absent true true 1) ann 1100 (lit "faillock") 7 start) = 7.
Proof. vm_compute. auto. Qed.

Print Assumptions trail_fits. Print Assumptions trail_readable. Print Assumptions trail_record. Print Assumptions trail_agrees. Print Assumptions trail_skipped. Print Assumptions trail_complete.
Print Assumptions trail_alerts. Print Assumptions trail_note. Print Assumptions trail_privilege_refuted. Print Assumptions trail_end_refuted. Print Assumptions trail_comma_refuted.
