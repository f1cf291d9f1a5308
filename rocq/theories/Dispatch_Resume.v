(** Suspension and resumption: resumed calls equal one uninterrupted call. *)
From Coq Require Import List Arith ZArith Lia Bool.
From Verif Require Import Base Dispatch_Model Dispatch_Spec Dispatch_Proofs.
Import ListNotations.
Local Open Scope Z_scope.

(** A module that is simply called again, up to [k] more times, while it answers
    PAM_INCOMPLETE. *)
Fixpoint patient {W} (call : handler -> Z -> W -> W * Z) (k : nat) (h : handler) (flags : Z) (w : W)
  : W * Z :=
  let (w', r) := call h flags w in
  if r =? PAM_INCOMPLETE then
    match k with O => (w', r) | S k' => patient call k' h flags w' end
  else (w', r).

(** Calling the suspended function again, up to [n] times. *)
Fixpoint resume_all {W} (call : handler -> Z -> W -> W * Z) (flags : Z) (uc : frozen)
  (h : list handler) (n : nat) (o : aout W) : aout W :=
  match o with
  | AInc f s =>
      match n with
      | O => o
      | S n' => resume_all call flags uc h n' (dispatch_aux call false flags uc h (Some f) s)
      end
  | _ => o
  end.

(** The answers a module gave, without the PAM_INCOMPLETE ones. *)
Definition settled (tr : list (nat * Z)) : list (nat * Z) :=
  filter (fun p => negb (snd p =? PAM_INCOMPLETE)) tr.

Definition same_result {W} (a b : wst W) : Prop :=
  ww a = ww b /\ cache a = cache b /\ grant a = grant b /\ settled (trace a) = settled (trace b).

Definition same_out {W} (a b : aout W) : Prop :=
  match a, b with
  | AFin x s, AFin y s' => x = y /\ same_result s s'
  | AUB, AUB => True
  | AFuel, AFuel => True
  | _, _ => False
  end.

Section R.
Variable W : Type.
Variable call : handler -> Z -> W -> W * Z.

Lemma patient_mono : forall k k' h flags w w' r,
  patient call k h flags w = (w', r) -> r <> PAM_INCOMPLETE -> (k <= k')%nat ->
  patient call k' h flags w = (w', r).
Proof.
  induction k as [|k IH]; intros k' h flags w w' r H N L; destruct k' as [|k']; simpl in *; try lia;
    destruct (call h flags w) as [w1 r1]; destruct (r1 =? PAM_INCOMPLETE) eqn:E; auto.
  - inversion H; subst. apply Z.eqb_eq in E; contradiction.
  - apply IH; auto; lia.
Qed.

(** ** Moving in the list *)

Lemma skip_rest_skipn : forall lvl l d t d',
  skip_rest lvl l d = (t, d') ->
  exists k, d' = (d + k)%nat /\ t = skipn k l /\ (k <= length l)%nat /\
            Forall (fun g => (lvl <= h_level g)%nat) (firstn k l) /\
            match t with [] => True | g :: _ => (h_level g < lvl)%nat end.
Proof.
  induction l as [|n l IH]; simpl; intros d t d' H.
  - inversion H; subst. exists 0%nat. simpl. repeat split; auto; lia.
  - destruct (Nat.leb_spec lvl (h_level n)).
    + apply IH in H. destruct H as (k & E1 & E2 & E3 & E4 & E5). exists (S k). simpl.
      repeat split; auto; try lia; try (constructor; auto; lia).
    + inversion H; subst. exists 0%nat. simpl. repeat split; auto; lia.
Qed.

Lemma do_jump_skipn : forall lvl l inner a d t d' a',
  do_jump lvl inner a l d = (t, d', a') ->
  exists k, d' = (d + k)%nat /\ t = skipn k l /\ (k <= length l)%nat /\
            Forall (fun g => (lvl <= h_level g)%nat) (firstn k l) /\
            (inner = false -> k = 0%nat \/ match t with [] => True | g :: _ => (h_level g <= lvl)%nat end) /\
            (inner = true -> match t with [] => True | g :: _ => (h_level g <= lvl)%nat end).
Proof.
  induction l as [|n l IH]; simpl; intros inner a d t d' a' H.
  - inversion H; subst. exists 0%nat. simpl. repeat split; auto; lia.
  - destruct (inner && (lvl <? h_level n)%nat) eqn:E1.
    + apply andb_true_iff in E1; destruct E1 as [-> E1]. apply Nat.ltb_lt in E1.
      apply IH in H. destruct H as (k & X1 & X2 & X3 & X4 & X5 & X6). exists (S k). simpl.
      repeat split; auto; try lia; try discriminate; try (constructor; auto; lia).
    + destruct ((lvl <=? h_level n)%nat && (0 <? a)) eqn:E2.
      * apply andb_true_iff in E2; destruct E2 as [E2 _]. apply Nat.leb_le in E2.
        apply IH in H. destruct H as (k & X1 & X2 & X3 & X4 & X5 & X6). exists (S k). simpl.
        repeat split; auto; try lia; try (constructor; auto; lia);
          try (intros _; right; apply X6; reflexivity); try (intros _; apply X6; reflexivity).
      * inversion H; subst. exists 0%nat. simpl. repeat split; auto; try lia.
        intros ->. simpl in E1. apply Nat.ltb_ge in E1. exact E1.
Qed.

(** Where a step goes: forward; and if it lands on a handler deeper than its list predecessor,
    that predecessor is the handler just processed. *)
Lemma perform_moves : forall uc lvl depth t i st subs r c a (s : wst W) t' d' i' st' subs' s',
  perform uc lvl depth t i st subs r c a s = StNext t' d' i' st' subs' s' ->
  exists k, d' = (S depth + k)%nat /\ t' = skipn k t /\ (k <= length t)%nat /\ subs' = subs /\
    Forall (fun g => (lvl <= h_level g)%nat) (firstn k t) /\
    (k = 0%nat \/ match t' with [] => True | g :: _ => (h_level g <= lvl)%nat end).
Proof.
  unfold perform; intros until s'; intro H.
  assert (K0 : forall (s0 : wst W) i0 st0, StNext t (S depth) i0 st0 subs s0 = StNext t' d' i' st' subs' s' ->
     exists k, d' = (S depth + k)%nat /\ t' = skipn k t /\ (k <= length t)%nat /\ subs' = subs /\
     Forall (fun g => (lvl <= h_level g)%nat) (firstn k t) /\
    (k = 0%nat \/ match t' with [] => True | g :: _ => (h_level g <= lvl)%nat end)).
  { intros s0 i0 st0 HH. inversion HH; subst. exists 0%nat. simpl. repeat split; auto; lia. }
  destruct (a =? ACT_RESET).
  { destruct (nth_error subs lvl) as [[[? ?]|]|]; try discriminate. eauto. }
  destruct ((a =? ACT_OK) || (a =? ACT_DONE)).
  { destruct (ok_verdict i st r c) as [i1 st1].
    destruct (imp_eqb i1 IPos && (a =? ACT_DONE)); [|eauto].
    destruct (skip_rest lvl t (S depth)) as [t1 d1] eqn:E. apply skip_rest_skipn in E.
    destruct E as (k & E1 & E2 & E3 & E4 & E5). inversion H; subst. exists k.
    repeat split; auto. right. destruct (skipn k t); auto. lia. }
  destruct ((a =? ACT_BAD) || (a =? ACT_DIE)).
  { destruct (bad_verdict i st r) as [i1 st1].
    destruct (a =? ACT_DIE); [|eauto].
    destruct (skip_rest lvl t (S depth)) as [t1 d1] eqn:E. apply skip_rest_skipn in E.
    destruct E as (k & E1 & E2 & E3 & E4 & E5). inversion H; subst. exists k.
    repeat split; auto. right. destruct (skipn k t); auto. lia. }
  destruct (a =? ACT_IGNORE); [eauto|].
  destruct (0 <? a); [|eauto].
  destruct (match uc with PLEASE_FREEZE => (i, st) | _ => ok_verdict i st r c end) as [i1 st1].
  destruct (do_jump lvl false a t (S depth)) as [[t1 d1] a1] eqn:E. apply do_jump_skipn in E.
  destruct E as (k & E1 & E2 & E3 & E4 & E5 & E6).
  assert (G : t1 = t' /\ d1 = d' /\ subs = subs') by (destruct (a1 =? 0); inversion H; auto).
  destruct G as (-> & -> & <-). exists k. repeat split; auto.
Qed.

Lemma step_moves : forall flags uc prev depth h t i st subs (s : wst W) t' d' i' st' subs' s',
  step call flags uc 0 prev depth h t i st subs s = StNext t' d' i' st' subs' s' ->
  exists k, d' = (S depth + k)%nat /\ t' = skipn k t /\ (k <= length t)%nat /\
    Forall (fun g => (h_level h <= h_level g)%nat) (firstn k t) /\
    (k = 0%nat \/ match t' with [] => True | g :: _ => (h_level g <= h_level h)%nat end).
Proof.
  unfold step; intros until s'; intro H.
  replace (depth <? 0)%nat with false in H by (symmetry; apply Nat.ltb_ge; lia).
  destruct (if (prev <? h_level h)%nat then upd subs (h_level h) (Some (i, st)) else Some subs)
    as [subs1|]; [|discriminate].
  destruct (attempt call flags depth h s) as [[r s1]|].
  2:{ inversion H; subst. exists 0%nat. simpl. repeat split; auto; lia. }
  destruct (r =? PAM_INCOMPLETE); [discriminate|].
  destruct (freeze uc h r s1) as [[c s2]| |]; try discriminate.
  destruct (select h r c) as [[r' a]| |]; try discriminate.
  apply perform_moves in H. destruct H as (k & ? & ? & ? & ? & ? & ?). exists k; auto.
Qed.

(** ** Skipping the modules that already returned *)

Lemma run_skip_irrelevant : forall n flags uc skip prev depth l i st subs (s : wst W),
  (length l <= n)%nat -> (skip <= depth)%nat ->
  run W call flags uc skip prev depth l i st subs s = run W call flags uc 0 prev depth l i st subs s.
Proof.
  induction n as [|n IH]; intros flags uc skip prev depth l i st subs s HL HS;
    (destruct l as [|h t]; [reflexivity|]); simpl in HL; [lia|].
  rewrite !run_cons.
  assert (E : step call flags uc skip prev depth h t i st subs s = step call flags uc 0 prev depth h t i st subs s).
  { unfold step. replace (depth <? skip)%nat with false by (symmetry; apply Nat.ltb_ge; lia). reflexivity. }
  rewrite E. destruct (step call flags uc 0 prev depth h t i st subs s) eqn:ES; [|reflexivity].
  apply step_moves in ES. destruct ES as (k & E1 & E2 & E3 & _). subst.
  apply IH; [rewrite skipn_length|]; lia.
Qed.

(** Level of the element before position [d] of [full] (0 at the start). *)
Definition pred_level (full : list handler) (d : nat) : nat :=
  match d with O => 0%nat | S d' => match nth_error full d' with Some g => h_level g | None => 0%nat end end.

Lemma run_skip_phase : forall flags uc skip pre post prev i st subs (s : wst W) depth,
  (depth + length pre = skip)%nat ->
  run W call flags uc skip prev depth (pre ++ post) i st subs s =
  run W call flags uc skip (match rev pre with [] => prev | g :: _ => h_level g end) skip post i st subs s.
Proof.
  intros flags uc skip pre. induction pre as [|g pre IH]; intros post prev i st subs s depth H; simpl in H.
  - simpl. replace depth with skip by lia. reflexivity.
  - rewrite <- app_comm_cons, run_cons. unfold step.
    replace (depth <? skip)%nat with true by (symmetry; apply Nat.ltb_lt; lia).
    rewrite IH by lia. simpl rev. destruct (rev pre) as [|x y] eqn:E; simpl; reflexivity.
Qed.

(** [prev_ok]: if position [d] is deeper than its list predecessor, the loop variable
    [prev_level] also says so. *)
Definition prev_ok (full : list handler) (prev d : nat) (l : list handler) : Prop :=
  match l with
  | [] => True
  | h :: _ => (pred_level full d < h_level h)%nat -> (prev < h_level h)%nat
  end.

Lemma nth_error_skipn : forall A (l : list A) k x t, skipn k l = x :: t -> nth_error l k = Some x.
Proof.
  induction l as [|a l IH]; destruct k; simpl; intros x t H; try discriminate.
  - inversion H; reflexivity.
  - eauto.
Qed.

Lemma skipn_skipn : forall A (l : list A) a b, skipn a (skipn b l) = skipn (b + a) l.
Proof.
  induction l as [|x l IH]; intros a b.
  - rewrite !skipn_nil. reflexivity.
  - destruct b; simpl; auto.
Qed.

Lemma skipn_cons_next : forall A (l : list A) d x t, skipn d l = x :: t -> skipn (S d) l = t.
Proof.
  induction l as [|a l IH]; intros d x t H; destruct d; simpl in *; try discriminate.
  - inversion H; reflexivity.
  - eauto.
Qed.

Lemma prev_ok_step : forall full flags uc prev depth h t i st subs (s : wst W) t' d' i' st' subs' s',
  skipn depth full = h :: t ->
  step call flags uc 0 prev depth h t i st subs s = StNext t' d' i' st' subs' s' ->
  skipn d' full = t' /\ prev_ok full (h_level h) d' t'.
Proof.
  intros until s'; intros HF H. apply step_moves in H.
  destruct H as (k & E1 & E2 & E3 & E4 & E5). subst d' t'.
  assert (HT : skipn (S depth) full = t) by (eapply skipn_cons_next; eauto).
  split. { rewrite <- HT, skipn_skipn. reflexivity. }
  destruct (skipn k t) as [|g q] eqn:EG; simpl; auto.
  destruct E5 as [->|E5].
  - simpl. rewrite Nat.add_0_r.
    rewrite (nth_error_skipn _ _ _ _ _ HF). auto.
  - (* predecessor is h or a skipped one: level >= h *)
    intro HP. exfalso.
    assert (HL : (h_level h <= match nth_error full (depth + k) with Some g0 => h_level g0 | None => 0 end)%nat).
    { destruct k as [|k].
      - rewrite Nat.add_0_r, (nth_error_skipn _ _ _ _ _ HF). lia.
      - assert (EN : nth_error full (depth + S k) = nth_error t k).
        { rewrite <- HT. clear. revert depth; induction full as [|a l IH]; intros depth.
          - rewrite skipn_nil. destruct (depth + S k)%nat, k; reflexivity.
          - destruct depth; simpl; auto. replace (depth + S k)%nat with (S (depth + k)) in * by lia.
            specialize (IH depth). replace (depth + S k)%nat with (S (depth + k)) in IH by lia. auto. }
        rewrite EN. destruct (nth_error t k) as [g0|] eqn:E0.
        + rewrite Forall_forall in E4. apply E4.
          clear - E0. revert k E0; induction t as [|a t IH]; intros k E0; destruct k; simpl in *; try discriminate.
          * left; congruence.
          * right; apply IH; auto.
        + apply nth_error_None in E0. lia. }
    lia.
Qed.

(** ** One uninterrupted call *)

Lemma settled_cons : forall d r tr, r <> PAM_INCOMPLETE -> settled ((d, r) :: tr) = (d, r) :: settled tr.
Proof. intros d r tr H. unfold settled. simpl. apply Z.eqb_neq in H. rewrite H. reflexivity. Qed.

Lemma settled_inc : forall d tr, settled ((d, 31) :: tr) = settled tr.
Proof. reflexivity. Qed.

(** Steps on related states. *)
Definition same_sres (a b : sres W) : Prop :=
  match a, b with
  | StNext t d i st subs s, StNext t' d' i' st' subs' s' =>
      t = t' /\ d = d' /\ i = i' /\ st = st' /\ subs = subs' /\ same_result s s'
  | StOut x, StOut y => same_out x y
  | _, _ => False
  end.

Lemma perform_same : forall uc lvl depth t i st subs r c a (s s' : wst W),
  same_result s s' ->
  same_sres (perform uc lvl depth t i st subs r c a s) (perform uc lvl depth t i st subs r c a s').
Proof.
  intros uc lvl depth t i st subs r c a s s' HS. unfold perform.
  assert (HG : forall b : bool, same_result (if b then grant_at depth s else s) (if b then grant_at depth s' else s')).
  { destruct HS as (? & ? & ? & ?). destruct b; repeat split; simpl; auto; congruence. }
  destruct (a =? ACT_RESET).
  { destruct (nth_error subs lvl) as [[[? ?]|]|]; simpl; auto. repeat split; auto; apply HS. }
  destruct ((a =? ACT_OK) || (a =? ACT_DONE)).
  { destruct (ok_verdict i st r c) as [i1 st1].
    destruct (imp_eqb i1 IPos && (a =? ACT_DONE)).
    - destruct (skip_rest lvl t (S depth)) as [t1 d1]. simpl. repeat split; auto; apply HG.
    - simpl. repeat split; auto; apply HG. }
  destruct ((a =? ACT_BAD) || (a =? ACT_DIE)).
  { destruct (bad_verdict i st r) as [i1 st1]. destruct (a =? ACT_DIE).
    - destruct (skip_rest lvl t (S depth)) as [t1 d1]. simpl. repeat split; auto; apply HS.
    - simpl. repeat split; auto; apply HS. }
  destruct (a =? ACT_IGNORE). { simpl. repeat split; auto; apply HS. }
  destruct (0 <? a).
  2:{ simpl. repeat split; auto; apply HS. }
  destruct (match uc with PLEASE_FREEZE => (i, st) | _ => ok_verdict i st r c end) as [i1 st1].
  destruct (do_jump lvl false a t (S depth)) as [[t1 d1] a1].
  assert (HG' : same_result (match uc with PLEASE_FREEZE => s | _ => if imp_eqb i IUndef && (r =? PAM_SUCCESS) then grant_at depth s else s end)
                            (match uc with PLEASE_FREEZE => s' | _ => if imp_eqb i IUndef && (r =? PAM_SUCCESS) then grant_at depth s' else s' end)).
  { destruct uc; auto. }
  destruct (a1 =? 0); simpl; repeat split; auto; apply HG'.
Qed.

Lemma freeze_same : forall uc h r (s s' : wst W),
  same_result s s' ->
  match freeze uc h r s, freeze uc h r s' with
  | Ok (c, t), Ok (c', t') => c = c' /\ same_result t t'
  | UB, UB => True
  | OutOfFuel, OutOfFuel => True
  | _, _ => False
  end.
Proof.
  intros uc h r s s' (H1 & H2 & H3 & H4). unfold freeze. destruct uc.
  - rewrite H2. destruct (upd (cache s') (h_cell h) r); simpl; auto. repeat split; auto.
  - rewrite H2. destruct (nth_error (cache s') (h_cellp h)) as [k|]; auto.
    destruct (k =? -1); repeat split; auto.
  - rewrite H2. destruct (nth_error (cache s') (h_cellp h)) as [k|]; auto.
    destruct (k =? -1); repeat split; auto.
Qed.

Definition is_call (h : handler) : bool :=
  match h_type h, h_func h with
  | (HT_MODULE | HT_SILENT), Some _ => true
  | _, _ => false
  end.

Lemma attempt_nocall : forall (c1 : handler -> Z -> W -> W * Z) flags depth h (s : wst W),
  is_call h = false ->
  attempt c1 flags depth h s =
  match h_type h with
  | HT_SUBSTACK => None
  | HT_MUST_FAIL => Some (PAM_PERM_DENIED, s)
  | _ => Some (PAM_MODULE_UNKNOWN, s)
  end.
Proof.
  intros c1 flags depth h s H. unfold attempt, is_call in *.
  destruct (h_type h); auto; destruct (h_func h); auto; discriminate.
Qed.

Lemma attempt_call : forall (c1 : handler -> Z -> W -> W * Z) flags depth h (s : wst W),
  is_call h = true ->
  attempt c1 flags depth h s =
  Some (snd (c1 h flags (ww s)),
        mkW (fst (c1 h flags (ww s))) (cache s) (grant s) ((depth, snd (c1 h flags (ww s))) :: trace s)).
Proof.
  intros c1 flags depth h s H. unfold attempt, is_call in *.
  destruct (h_type h); try discriminate; destruct (h_func h); try discriminate;
    destruct (c1 h flags (ww s)); reflexivity.
Qed.

Definition open_subs (prev : nat) (h : handler) (i : imp) (st : Z) (subs : subst) : option subst :=
  if (prev <? h_level h)%nat then upd subs (h_level h) (Some (i, st)) else Some subs.

(** The rest of a step once the module has answered [r]. *)
Definition after (uc : frozen) (depth : nat) (h : handler) (t : list handler) (i : imp) (st : Z)
  (subs : subst) (r : Z) (s : wst W) : sres W :=
  match freeze uc h r s with
  | UB => StOut AUB | OutOfFuel => StOut AFuel
  | Ok (cached, s) =>
    match select h r cached with
    | UB => StOut AUB | OutOfFuel => StOut AFuel
    | Ok (r, action) => perform uc (h_level h) depth t i st subs r cached action s
    end
  end.

Lemma after_same : forall uc depth h t i st subs r (s s' : wst W),
  same_result s s' -> same_sres (after uc depth h t i st subs r s) (after uc depth h t i st subs r s').
Proof.
  intros uc depth h t i st subs r s s' HS. unfold after.
  pose proof (freeze_same uc h r s s' HS) as HF.
  destruct (freeze uc h r s) as [[c s1]| |], (freeze uc h r s') as [[c' s1']| |]; try contradiction; simpl; auto.
  destruct HF as [-> HF]. destruct (select h r c') as [[r' a]| |]; simpl; auto.
  apply perform_same; auto.
Qed.

Lemma step_eq : forall (c1 : handler -> Z -> W -> W * Z) flags uc prev depth h t i st subs (s : wst W),
  step c1 flags uc 0 prev depth h t i st subs s =
  match open_subs prev h i st subs with
  | None => StOut AUB
  | Some subs1 =>
    match attempt c1 flags depth h s with
    | None => StNext t (S depth) i st subs1 s
    | Some (r, s1) => if r =? PAM_INCOMPLETE then StOut (AInc (mkF depth i st subs1) s1)
                      else after uc depth h t i st subs1 r s1
    end
  end.
Proof.
  intros. unfold step, open_subs, after.
  replace (depth <? 0)%nat with false by (symmetry; apply Nat.ltb_ge; lia). reflexivity.
Qed.

Lemma after_not_inc : forall uc depth h t i st subs r (s : wst W) f s',
  after uc depth h t i st subs r s <> StOut (AInc f s').
Proof.
  intros uc depth h t i st subs r s f s'. unfold after.
  destruct (freeze uc h r s) as [[c s1]| |]; try discriminate.
  destruct (select h r c) as [[r' a]| |]; try discriminate.
  unfold perform.
  destruct (a =? ACT_RESET). { destruct (nth_error subs (h_level h)) as [[[? ?]|]|]; discriminate. }
  destruct ((a =? ACT_OK) || (a =? ACT_DONE)).
  { destruct (ok_verdict i st r' c) as [i1 st1].
    destruct (imp_eqb i1 IPos && (a =? ACT_DONE)); [|discriminate].
    destruct (skip_rest (h_level h) t (S depth)); discriminate. }
  destruct ((a =? ACT_BAD) || (a =? ACT_DIE)).
  { destruct (bad_verdict i st r') as [i1 st1]. destruct (a =? ACT_DIE); [|discriminate].
    destruct (skip_rest (h_level h) t (S depth)); discriminate. }
  destruct (a =? ACT_IGNORE); [discriminate|]. destruct (0 <? a); [|discriminate].
  destruct (match uc with PLEASE_FREEZE => (i, st) | _ => ok_verdict i st r' c end).
  destruct (do_jump (h_level h) false a t (S depth)) as [[? ?] rr]; destruct (rr =? 0); discriminate.
Qed.

(** Resuming at the suspended position is running from that position. *)
Lemma resume_position : forall flags uc full prev depth h t i st subs subs1 (s : wst W),
  skipn depth full = h :: t -> prev_ok full prev depth (h :: t) ->
  open_subs prev h i st subs = Some subs1 ->
  dispatch_aux call false flags uc full (Some (mkF depth i st subs1)) s =
  run W call flags uc 0 prev depth (h :: t) i st subs s.
Proof.
  intros flags uc full prev depth h t i st subs subs1 s HF HP HO.
  assert (HL : (length (firstn depth full) = depth)%nat).
  { rewrite firstn_length. assert (length (skipn depth full) = S (length t)) by (rewrite HF; reflexivity).
    rewrite skipn_length in H. lia. }
  assert (E0 : full = firstn depth full ++ h :: t) by (rewrite <- HF; symmetry; apply firstn_skipn).
  unfold dispatch_aux. destruct full as [|f0 fr]; [rewrite skipn_nil in HF; discriminate|].
  cbn [f_depth f_imp f_status f_subs].
  change (aux_loop call (S (length (f0 :: fr))) flags uc depth 0 0 (f0 :: fr) i st subs1 s)
    with (run W call flags uc depth 0 0 (f0 :: fr) i st subs1 s).
  rewrite E0 at 1.
  rewrite run_skip_phase by lia.
  rewrite (run_skip_irrelevant (S (length t))) by (simpl; lia).
  set (pl := match rev (firstn depth (f0 :: fr)) with [] => 0%nat | g :: _ => h_level g end).
  assert (HPL : pl = pred_level (f0 :: fr) depth).
  { subst pl. clear - HL. destruct depth as [|d]; [reflexivity|]. unfold pred_level.
    destruct (nth_error (f0 :: fr) d) as [g|] eqn:E.
    - assert (X : firstn (S d) (f0 :: fr) = firstn d (f0 :: fr) ++ [g]).
      { clear HL. revert E. generalize (f0 :: fr) as l. induction d as [|d IH]; intros l E; destruct l; simpl in *; try discriminate.
        - inversion E; reflexivity.
        - f_equal. auto. }
      rewrite X, rev_app_distr. reflexivity.
    - apply nth_error_None in E. rewrite firstn_length in HL. lia. }
  rewrite !run_cons, !step_eq.
  assert (HO' : open_subs pl h i st subs1 = Some subs1).
  { unfold open_subs in *. destruct (Nat.ltb_spec pl (h_level h)) as [H1|H1]; [|reflexivity].
    rewrite HPL in H1. apply HP in H1. apply Nat.ltb_lt in H1. rewrite H1 in HO.
    apply upd_id. eapply upd_same; eauto. }
  rewrite HO', HO. reflexivity.
Qed.

Lemma patient_first : forall k h flags w w1 r,
  call h flags w = (w1, r) -> r <> PAM_INCOMPLETE -> patient call k h flags w = (w1, r).
Proof.
  intros k h flags w w1 r H N. destruct k; simpl; rewrite H;
    replace (r =? PAM_INCOMPLETE) with false by (symmetry; apply Z.eqb_neq; auto); reflexivity.
Qed.

(** Main simulation. *)
Lemma resume_sim : forall flags uc full N n m l,
  (n <= N)%nat -> (length l <= m)%nat ->
  forall prev depth i st subs (s sB : wst W) o,
  skipn depth full = l -> prev_ok full prev depth l -> same_result s sB ->
  resume_all call flags uc full n (run W call flags uc 0 prev depth l i st subs s) = o ->
  (forall f s', o <> AInc f s') ->
  same_out o (run W (patient call N) flags uc 0 prev depth l i st subs sB) /\
  match l with
  | [] => True
  | h :: _ => (exists sb1, open_subs prev h i st subs = Some sb1) -> is_call h = true ->
              exists k w' r, (k <= n)%nat /\ patient call k h flags (ww s) = (w', r) /\ r <> PAM_INCOMPLETE
  end.
Proof.
  intros flags uc full N n. induction n as [n IHn] using lt_wf_ind.
  intros m. induction m as [|m IHm]; intros l HN HM prev depth i st subs s sB o HF HP HS HR HO.
  - destruct l; [|simpl in HM; lia]. rewrite run_nil in *.
    assert (X : resume_all call flags uc full n (AFin (finish i st) s) = AFin (finish i st) s) by (destruct n; reflexivity).
    rewrite X in HR. subst o. split; [|trivial]. split; auto.
  - destruct l as [|h t].
    { rewrite run_nil in *.
      assert (X : resume_all call flags uc full n (AFin (finish i st) s) = AFin (finish i st) s) by (destruct n; reflexivity).
      rewrite X in HR. subst o. split; [|trivial]. split; auto. }
    simpl in HM.
    rewrite run_cons in HR |- *. rewrite step_eq in HR |- *.
    destruct (open_subs prev h i st subs) as [subs1|] eqn:EO.
    2:{ assert (X : resume_all call flags uc full n (@AUB W) = AUB) by (destruct n; reflexivity).
        rewrite X in HR. subst o. split; [simpl; auto|]. intros [? ?]; discriminate. }
    (* continuing after a step that leads to related states *)
    assert (NEXT : forall (q qB : sres W),
      same_sres q qB ->
      (forall t' d' i' st' subs' s', q = StNext t' d' i' st' subs' s' ->
         skipn d' full = t' /\ prev_ok full (h_level h) d' t' /\ (length t' <= m)%nat) ->
      (forall f s', q <> StOut (AInc f s')) ->
      resume_all call flags uc full n (match q with
          | StNext t' d' i' st' subs' s' => run W call flags uc 0 (h_level h) d' t' i' st' subs' s'
          | StOut o => o end) = o ->
      same_out o (match qB with
          | StNext t' d' i' st' subs' s' => run W (patient call N) flags uc 0 (h_level h) d' t' i' st' subs' s'
          | StOut o => o end)).
    { intros q qB HSQ HQ HNI HRQ. destruct q as [t' d' i' st' subs' s'|x], qB as [tB dB iB stB subsB sB'|xB];
        simpl in HSQ; try contradiction.
      - destruct HSQ as (<- & <- & <- & <- & <- & HS'). destruct (HQ _ _ _ _ _ _ eq_refl) as (Q1 & Q2 & Q3).
        refine (proj1 (IHm t' HN Q3 (h_level h) d' i' st' subs' s' sB' o Q1 Q2 HS' HRQ HO)).
      - destruct x as [z zs|f zs| |]; [| exfalso; eapply HNI; reflexivity | |].
        + assert (X : resume_all call flags uc full n (AFin z zs) = AFin z zs) by (destruct n; reflexivity).
          rewrite X in HRQ. rewrite <- HRQ. exact HSQ.
        + assert (X : resume_all call flags uc full n (@AUB W) = AUB) by (destruct n; reflexivity).
          rewrite X in HRQ. rewrite <- HRQ. exact HSQ.
        + assert (X : resume_all call flags uc full n (@AFuel W) = AFuel) by (destruct n; reflexivity).
          rewrite X in HRQ. rewrite <- HRQ. exact HSQ. }
    assert (AFT : forall r s1, (r =? PAM_INCOMPLETE) = false -> attempt call flags depth h s = Some (r, s1) ->
       forall t' d' i' st' subs' s', after uc depth h t i st subs1 r s1 = StNext t' d' i' st' subs' s' ->
         skipn d' full = t' /\ prev_ok full (h_level h) d' t' /\ (length t' <= m)%nat).
    { intros r s1 Er Ea t' d' i' st' subs' s' EQ.
      assert (ST : step call flags uc 0 prev depth h t i st subs s = StNext t' d' i' st' subs' s').
      { rewrite step_eq, EO, Ea, Er. exact EQ. }
      destruct (prev_ok_step full _ _ _ _ _ _ _ _ _ _ _ _ _ _ _ _ HF ST) as [Q1 Q2].
      repeat split; auto. apply step_len in ST. lia. }
    destruct (is_call h) eqn:EC.
    2:{ split; [|intros _ ?; discriminate].
        rewrite (attempt_nocall call) in HR by auto.
        rewrite (attempt_nocall (patient call N)) by auto.
        destruct (h_type h) eqn:ET.
        - eapply NEXT with (q := after uc depth h t i st subs1 PAM_MODULE_UNKNOWN s); eauto.
          + apply after_same; auto.
          + apply AFT; auto. rewrite attempt_nocall, ET by auto. reflexivity.
          + intros f s'. apply after_not_inc.
        - eapply NEXT with (q := after uc depth h t i st subs1 PAM_PERM_DENIED s); eauto.
          + apply after_same; auto.
          + apply AFT; auto. rewrite attempt_nocall, ET by auto. reflexivity.
          + intros f s'. apply after_not_inc.
        - eapply NEXT with (q := StNext t (S depth) i st subs1 s) (qB := StNext t (S depth) i st subs1 sB); eauto.
          + simpl. repeat split; auto; apply HS.
          + intros t' d' i' st' subs' s' EQ. inversion EQ; subst.
            assert (HT : skipn (S depth) full = t') by (eapply skipn_cons_next; eauto).
            repeat split; auto; [|lia].
            destruct t' as [|g q]; simpl; auto.
            rewrite (nth_error_skipn _ _ _ _ _ HF). auto.
          + discriminate.
        - eapply NEXT with (q := after uc depth h t i st subs1 PAM_MODULE_UNKNOWN s); eauto.
          + apply after_same; auto.
          + apply AFT; auto. rewrite attempt_nocall, ET by auto. reflexivity.
          + intros f s'. apply after_not_inc. }
    rewrite (attempt_call call) in HR by auto.
    rewrite (attempt_call (patient call N)) by auto.
    destruct HS as (S1 & S2 & S3 & S4).
    destruct (call h flags (ww s)) as [w1 r] eqn:ECALL. simpl fst in *; simpl snd in *.
    destruct (r =? PAM_INCOMPLETE) eqn:ER.
    + (* suspended here *)
      apply Z.eqb_eq in ER. subst r.
      destruct n as [|n]; simpl resume_all in HR; [exfalso; eapply HO; eauto|].
      rewrite (resume_position flags uc full prev depth h t i st subs subs1) in HR by auto.
      assert (HS1 : same_result (mkW w1 (cache s) (grant s) ((depth, 31) :: trace s))
                      (mkW w1 (cache sB) (grant sB) (trace sB))).
      { repeat split; simpl; auto. }
      destruct (IHn n (Nat.lt_succ_diag_r n) (S (length t)) (h :: t) ltac:(lia) (le_n _) prev depth i st subs _ _ o HF HP HS1 HR HO)
        as [HB HK].
      destruct (HK (ex_intro _ _ EO) EC) as (k & w' & r & Hk & Hpat & Hr). simpl ww in Hpat.
      assert (PW : patient call (S k) h flags (ww s) = (w', r)).
      { simpl. rewrite ECALL. simpl. exact Hpat. }
      split.
      2:{ intros _ _. exists (S k), w', r. repeat split; auto; lia. }
      assert (P1 : patient call N h flags (ww sB) = (w', r)).
      { rewrite <- S1. eapply patient_mono; eauto; lia. }
      assert (P2 : patient call N h flags w1 = (w', r)).
      { eapply patient_mono; eauto; lia. }
      rewrite run_cons, step_eq, EO, (attempt_call (patient call N)) in HB by auto. simpl ww in HB.
      rewrite P2 in HB. rewrite P1. exact HB.
    + (* answered *)
      assert (NR : r <> PAM_INCOMPLETE) by (apply Z.eqb_neq; auto).
      assert (P1 : patient call N h flags (ww sB) = (w1, r)).
      { rewrite <- S1. apply patient_first; auto. }
      rewrite P1. simpl fst; simpl snd. rewrite ER.
      split.
      2:{ intros _ _. exists 0%nat, w1, r. split; [lia|]. split; auto. apply patient_first; auto. }
      eapply NEXT with (q := after uc depth h t i st subs1 r (mkW w1 (cache s) (grant s) ((depth, r) :: trace s))); eauto.
      * apply after_same. repeat split; cbn [ww cache grant trace]; auto. rewrite !settled_cons by auto. congruence.
      * apply AFT; auto. rewrite attempt_call, ECALL by auto. reflexivity.
      * intros f s'. apply after_not_inc.
Qed.

Lemma resume_transparent : forall flags uc full n s o,
  resume_all call flags uc full n (dispatch_aux call false flags uc full None s) = o ->
  (forall f s', o <> AInc f s') ->
  same_out o (dispatch_aux (patient call n) false flags uc full None s).
Proof.
  intros flags uc full n s o HR HO. unfold dispatch_aux in *.
  destruct full as [|h t].
  - assert (X : resume_all call flags uc [] n (AFin 6 s) = AFin 6 s) by (destruct n; reflexivity).
    rewrite X in HR. subst o. simpl. repeat split; auto.
  - change (aux_loop call (S (length (h :: t))) flags uc 0 0 0 (h :: t) IUndef 6 fresh_subs s)
      with (run W call flags uc 0 0 0 (h :: t) IUndef 6 fresh_subs s) in HR.
    change (aux_loop (patient call n) (S (length (h :: t))) flags uc 0 0 0 (h :: t) IUndef 6 fresh_subs s)
      with (run W (patient call n) flags uc 0 0 0 (h :: t) IUndef 6 fresh_subs s).
    eapply resume_sim with (N := n) (n := n) (m := length (h :: t)) (full := h :: t) (l := h :: t) (s := s) (sB := s); eauto.
    + simpl. auto.
    + repeat split; auto.
Qed.

End R.
