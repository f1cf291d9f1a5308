(** Invariants over arbitrary histories of management calls, suspended and resumed. *)
From Coq Require Import List Arith ZArith Lia Bool.
From Verif Require Import Base Dispatch_Model Dispatch_Spec Dispatch_Proofs Dispatch_Resume Dispatch_Credit Dispatch_Sticky.
Import ListNotations.
Local Open Scope Z_scope.

Section Inv.
Variable W : Type.
Variable call : handler -> Z -> W -> W * Z.

(** ** A generic invariant rule for the loop *)
Section Rule.
Variable full : list handler.
Variable uc : frozen.
Variable P : nat -> nat -> imp -> Z -> subst -> wst W -> Prop.
Variable Q : former -> wst W -> Prop.
Variable may_ub : Prop.

Definition out_inv (o : aout W) : Prop :=
  match o with
  | AFin _ _ => False
  | AInc f s => Q f s
  | AUB => may_ub
  | AFuel => False
  end.

Hypothesis HN : forall flags prev depth h t i st subs (s : wst W) t' d' i' st' subs' s',
  skipn depth full = h :: t -> P prev depth i st subs s ->
  step call flags uc 0 prev depth h t i st subs s = StNext t' d' i' st' subs' s' ->
  P (h_level h) d' i' st' subs' s'.
Hypothesis HO : forall flags prev depth h t i st subs (s : wst W) o,
  skipn depth full = h :: t -> P prev depth i st subs s ->
  step call flags uc 0 prev depth h t i st subs s = StOut o -> out_inv o.
Hypothesis HQ : forall f s, Q f s ->
  P (pred_level full (f_depth f)) (f_depth f) (f_imp f) (f_status f) (f_subs f) s.

Definition end_inv (o : aout W) : Prop :=
  match o with
  | AFin z s => exists prev d i st subs, P prev d i st subs s /\ skipn d full = [] /\ z = finish i st
  | _ => out_inv o
  end.

Lemma run_inv : forall flags n l prev depth i st subs (s : wst W),
  (length l <= n)%nat -> skipn depth full = l -> P prev depth i st subs s ->
  end_inv (run W call flags uc 0 prev depth l i st subs s).
Proof.
  intros flags n. induction n as [|n IH]; intros l prev depth i st subs s HL HF HP.
  - destruct l; [|simpl in HL; lia]. rewrite run_nil. simpl. do 5 eexists; eauto.
  - destruct l as [|h t].
    { rewrite run_nil. simpl. do 5 eexists; eauto. }
    rewrite run_cons.
    destruct (step call flags uc 0 prev depth h t i st subs s) as [t' d' i' st' subs' s1|o] eqn:ES.
    + pose proof (step_len _ _ _ _ _ _ _ _ _ _ _ _ _ _ _ _ _ _ _ ES) as HLen. simpl in HL.
      assert (HSK : skipn d' full = t') by (apply (prev_ok_step W call full _ _ _ _ _ _ _ _ _ _ _ _ _ _ _ _ HF ES)).
      apply IH; [lia|exact HSK|]. eapply HN; eauto.
    + pose proof (HO _ _ _ _ _ _ _ _ _ _ HF HP ES) as H1. destruct o; simpl in *; auto. contradiction.
Qed.

Lemma resumed_inv : forall oom flags f (s : wst W),
  full <> [] -> Q f s -> (f_depth f <= length full)%nat ->
  end_inv (dispatch_aux call oom flags uc full (Some f) s).
Proof.
  intros oom flags f s HNE HQf HD. unfold dispatch_aux.
  destruct full as [|h0 t0] eqn:EFull; [congruence|]. rewrite <- EFull in *.
  change (end_inv (run W call flags uc (f_depth f) 0 0 full (f_imp f) (f_status f) (f_subs f) s)).
  rewrite <- (firstn_skipn (f_depth f) full) at 1.
  rewrite run_skip_phase by (rewrite firstn_length; lia).
  rewrite run_skip_irrelevant with (n := length (skipn (f_depth f) full)) by lia.
  replace (match rev (firstn (f_depth f) full) with [] => 0%nat | g :: _ => h_level g end)
    with (pred_level full (f_depth f)).
  - eapply run_inv; eauto.
  - unfold pred_level. destruct (f_depth f) as [|d]; [reflexivity|].
    destruct (nth_error full d) as [g|] eqn:EN.
    + assert (E : firstn (S d) full = firstn d full ++ [g]).
      { clear - EN. revert full EN. induction d as [|d IH]; intros [|a l] EN; simpl in *; try discriminate.
        - inversion EN; reflexivity.
        - rewrite <- (IH l EN). reflexivity. }
      rewrite E, rev_app_distr. reflexivity.
    + apply nth_error_None in EN. lia.
Qed.

Lemma fresh_inv : forall oom flags (s : wst W),
  full <> [] -> P 0 0 IUndef PAM_PERM_DENIED fresh_subs s ->
  match dispatch_aux call oom flags uc full None s with
  | AFin z s' => (z = PAM_BUF_ERR /\ oom = true /\ s' = s) \/ end_inv (AFin z s')
  | o => end_inv o
  end.
Proof.
  intros oom flags s HNE HP. unfold dispatch_aux.
  destruct full as [|h0 t0] eqn:EFull; [congruence|]. rewrite <- EFull in *.
  destruct oom; [left; auto|].
  change (aux_loop call (S (length full)) flags uc 0 0 0 full IUndef 6 fresh_subs s)
    with (run W call flags uc 0 0 0 full IUndef 6 fresh_subs s).
  pose proof (run_inv flags (length full) full 0 0 IUndef 6 fresh_subs s (le_n _) eq_refl HP) as H.
  destruct (run W call flags uc 0 0 0 full IUndef 6 fresh_subs s); auto.
Qed.
End Rule.
End Inv.

(** ** Shape of one iteration *)
Lemma perform_out : forall W uc lvl depth t i st subs r c a (s : wst W) o,
  perform uc lvl depth t i st subs r c a s = StOut o ->
  o = AUB /\ a = ACT_RESET /\ forall x, nth_error subs lvl <> Some (Some x).
Proof.
  intros W uc lvl depth t i st subs r c a s o H. unfold perform in H.
  destruct (Z.eqb_spec a ACT_RESET) as [->|NE].
  { destruct (nth_error subs lvl) as [[[? ?]|]|]; inversion H; subst; repeat split; intros; discriminate. }
  destruct ((a =? ACT_OK) || (a =? ACT_DONE)).
  { destruct (ok_verdict i st r c) as [i1 st1].
    destruct (imp_eqb i1 IPos && (a =? ACT_DONE)); [|discriminate].
    destruct (skip_rest lvl t (S depth)); discriminate. }
  destruct ((a =? ACT_BAD) || (a =? ACT_DIE)).
  { destruct (bad_verdict i st r) as [i1 st1]. destruct (a =? ACT_DIE); [|discriminate].
    destruct (skip_rest lvl t (S depth)); discriminate. }
  destruct (a =? ACT_IGNORE); [discriminate|]. destruct (0 <? a); [|discriminate].
  destruct (match uc with PLEASE_FREEZE => (i, st) | _ => ok_verdict i st r c end).
  destruct (do_jump lvl false a t (S depth)) as [[? ?] rr]; destruct (rr =? 0); discriminate.
Qed.

(** What leaves the loop early. *)
Lemma step_out : forall W (call : handler -> Z -> W -> W * Z) flags uc prev depth h t i st subs (s : wst W) o,
  step call flags uc 0 prev depth h t i st subs s = StOut o ->
  o = AUB \/ exists subs1 s1, o = AInc (mkF depth i st subs1) s1 /\ open_subs prev h i st subs = Some subs1 /\
    attempt call flags depth h s = Some (PAM_INCOMPLETE, s1).
Proof.
  intros W call flags uc prev depth h t i st subs s o H. rewrite step_eq in H.
  destruct (open_subs prev h i st subs) as [subs1|]; [|inversion H; auto].
  destruct (attempt call flags depth h s) as [[r s1]|]; [|discriminate].
  destruct (Z.eqb_spec r PAM_INCOMPLETE) as [->|NE]; [right; inversion H; subst; eauto|].
  unfold after in H.
  assert (freeze uc h r s1 <> OutOfFuel).
  { unfold freeze. destruct uc.
    - destruct (upd (cache s1) (h_cell h) r); discriminate.
    - destruct (nth_error (cache s1) (h_cellp h)) as [k|]; [destruct (k =? -1)|]; discriminate.
    - destruct (nth_error (cache s1) (h_cellp h)) as [k|]; [destruct (k =? -1)|]; discriminate. }
  destruct (freeze uc h r s1) as [[c s2]| |]; [|inversion H; auto|congruence].
  assert (select h r c <> OutOfFuel).
  { unfold select. destruct ((c <? 0) || (32 <=? c)); [discriminate|].
    destruct (nth_error (h_actions h) (Z.to_nat c)); discriminate. }
  destruct (select h r c) as [[r' a]| |]; [|inversion H; auto|congruence].
  apply perform_out in H. tauto.
Qed.

(** The next entry after a step. *)
Lemma skip_rest_head : forall lvl l d t d', skip_rest lvl l d = (t, d') ->
  match t with [] => True | g :: _ => (h_level g <= lvl)%nat end.
Proof.
  induction l as [|h l IH]; intros d t d' H; simpl in H; [inversion H; auto|].
  destruct (lvl <=? h_level h)%nat eqn:E; [eapply IH; eauto|]. inversion H; subst. apply Nat.leb_gt in E. lia.
Qed.

Lemma do_jump_head : forall lvl l inner a d t d' a', do_jump lvl inner a l d = (t, d', a') ->
  (inner = false -> match l with [] => True | g :: _ => (h_level g <= lvl)%nat end) ->
  match t with [] => True | g :: _ => (h_level g <= lvl)%nat end.
Proof.
  induction l as [|h l IH]; intros inner a d t d' a' H HI; simpl in H; [inversion H; auto|].
  destruct (inner && (lvl <? h_level h)%nat) eqn:E1.
  - eapply IH; eauto. intro; discriminate.
  - destruct ((lvl <=? h_level h)%nat && (0 <? a)) eqn:E2.
    + eapply IH; eauto. intro; discriminate.
    + inversion H; subst. destruct inner; simpl in E1; auto. apply Nat.ltb_ge in E1. lia.
Qed.

Lemma perform_next : forall W uc lvl depth t i st subs r c a (s : wst W) t' d' i' st' subs' s',
  match t with [] => True | g :: _ => (h_level g <= lvl)%nat end ->
  perform uc lvl depth t i st subs r c a s = StNext t' d' i' st' subs' s' ->
  subs' = subs /\ cache s' = cache s /\ trace s' = trace s /\
  (st' = st \/ st' = r \/ st' = PAM_PERM_DENIED \/ exists j k, nth_error subs j = Some (Some (k, st'))) /\
  match t' with [] => True | g :: _ => (h_level g <= lvl)%nat end.
Proof.
  intros W uc lvl depth t i st subs r c a s t' d' i' st' subs' s' HH H.
  assert (GR : forall b : bool, cache (if b then grant_at depth s else s) = cache s) by (destruct b; reflexivity).
  assert (GT : forall b : bool, trace (if b then grant_at depth s else s) = trace s) by (destruct b; reflexivity).
  unfold perform in H.
  destruct (a =? ACT_RESET).
  { destruct (nth_error subs lvl) as [[[i1 st1]|]|] eqn:E; inversion H; subst. repeat split; auto.
    right; right; right. eauto. }
  assert (OV : snd (ok_verdict i st r c) = st \/ snd (ok_verdict i st r c) = r).
  { unfold ok_verdict. destruct (ok_applies i st && (negb (r =? PAM_IGNORE) || (c =? r))); auto. }
  destruct ((a =? ACT_OK) || (a =? ACT_DONE)).
  { destruct (ok_verdict i st r c) as [i1 st1]. simpl in OV.
    destruct (imp_eqb i1 IPos && (a =? ACT_DONE)).
    - destruct (skip_rest lvl t (S depth)) as [t1 d1] eqn:ES. apply skip_rest_head in ES.
      inversion H; subst. rewrite GR, GT. repeat split; auto. tauto.
    - inversion H; subst. rewrite GR, GT. repeat split; auto. tauto. }
  destruct ((a =? ACT_BAD) || (a =? ACT_DIE)).
  { assert (BV : snd (bad_verdict i st r) = st \/ snd (bad_verdict i st r) = r \/ snd (bad_verdict i st r) = 6).
    { unfold bad_verdict. destruct (imp_eqb i INeg); simpl; auto. destruct (r =? 25); auto. }
    destruct (bad_verdict i st r) as [i1 st1]. simpl in BV. destruct (a =? ACT_DIE).
    - destruct (skip_rest lvl t (S depth)) as [t1 d1] eqn:ES. apply skip_rest_head in ES.
      inversion H; subst. repeat split; auto. tauto.
    - inversion H; subst. repeat split; auto. tauto. }
  destruct (a =? ACT_IGNORE). { inversion H; subst. repeat split; auto. }
  destruct (0 <? a).
  2:{ inversion H; subst. repeat split; auto. }
  destruct (do_jump lvl false a t (S depth)) as [[t1 d1] a1] eqn:EJ.
  apply do_jump_head in EJ; [|auto].
  assert (HT : let q := match uc with PLEASE_FREEZE => s | _ => if imp_eqb i IUndef && (r =? PAM_SUCCESS) then grant_at depth s else s end in
               cache q = cache s /\ trace q = trace s).
  { destruct uc; simpl; auto. }
  destruct HT as [HT1 HT2].
  assert (HV : let q := match uc with PLEASE_FREEZE => (i, st) | _ => ok_verdict i st r c end in snd q = st \/ snd q = r).
  { destruct uc; auto. }
  destruct (match uc with PLEASE_FREEZE => (i, st) | _ => ok_verdict i st r c end) as [i1 st1]. simpl in HV.
  destruct (a1 =? 0); inversion H; subst; rewrite HT1, HT2; repeat split; auto; tauto.
Qed.

Lemma attempt_len : forall W (call : handler -> Z -> W -> W * Z) flags depth h (s : wst W) r s1,
  attempt call flags depth h s = Some (r, s1) -> h_type h <> HT_SUBSTACK.
Proof. intros W call flags depth h s r s1 H E. unfold attempt in H. rewrite E in H. discriminate. Qed.

(** ** No undefined behaviour *)

(** What the loader guarantees about a stack. *)
Definition stack_ok (nc : nat) (l : list handler) : Prop :=
  levels_ok 0 false l /\
  Forall (fun h => (h_level h < SUBSTACK_MAX)%nat /\ length (h_actions h) = 32%nat /\
                   (h_cell h < nc)%nat /\ (h_cellp h < nc)%nat) l.

Definition filled (subs : subst) (k : nat) : Prop :=
  forall j, (j <= k)%nat -> exists x, nth_error subs j = Some (Some x).

Section Safe.
Variable W : Type.
Variable call : handler -> Z -> W -> W * Z.
Variable full : list handler.
Variable nc : nat.
Variable uc : frozen.
Hypothesis HUC : uc <> MUST_BE_FROZEN.
Hypothesis HF : stack_ok nc full.

Definition safeP (prev depth : nat) (i : imp) (st : Z) (subs : subst) (s : wst W) : Prop :=
  length subs = SUBSTACK_MAX /\ length (cache s) = nc /\
  match skipn depth full with
  | [] => True
  | h :: _ => (h_level h <= S prev)%nat /\ filled subs (Nat.min prev (h_level h))
  end.

Definition safeQ (f : former) (s : wst W) : Prop :=
  length (f_subs f) = SUBSTACK_MAX /\ length (cache s) = nc /\
  exists h t, skipn (f_depth f) full = h :: t /\ filled (f_subs f) (h_level h).

Lemma full_in : forall d h t, skipn d full = h :: t ->
  (h_level h < SUBSTACK_MAX)%nat /\ length (h_actions h) = 32%nat /\ (h_cell h < nc)%nat /\ (h_cellp h < nc)%nat.
Proof.
  intros d h t E. destruct HF as [_ H]. rewrite Forall_forall in H. apply H.
  eapply nth_error_In. eapply nth_error_skipn; eauto.
Qed.

Lemma open_filled : forall prev h i st subs t d,
  skipn d full = h :: t -> length subs = SUBSTACK_MAX -> (h_level h <= S prev)%nat ->
  filled subs (Nat.min prev (h_level h)) ->
  exists subs1, open_subs prev h i st subs = Some subs1 /\ length subs1 = SUBSTACK_MAX /\ filled subs1 (h_level h).
Proof.
  intros prev h i st subs t d E HL Hl HFi. unfold open_subs.
  destruct (Nat.ltb_spec prev (h_level h)) as [Hlt|Hge].
  - destruct (upd_some _ subs (h_level h) (Some (i, st))) as [s1 EU].
    { rewrite HL. eapply full_in; eauto. }
    exists s1. split; auto. split; [rewrite (upd_length _ _ _ _ _ EU); auto|].
    intros j Hj. destruct (Nat.eq_dec (h_level h) j) as [<-|NE].
    + rewrite (upd_same _ _ _ _ _ EU). eauto.
    + rewrite (upd_other _ _ _ _ _ _ EU NE). apply HFi. lia.
  - exists subs. split; auto. split; auto. intros j Hj. apply HFi. lia.
Qed.

Lemma level_next : forall d h t, skipn d full = h :: t ->
  match t with
  | [] => True
  | g :: _ => (h_level g <= S (h_level h))%nat /\ (h_type h <> HT_SUBSTACK -> (h_level g <= h_level h)%nat)
  end.
Proof.
  destruct HF as [HL _]. intros d. revert HL. generalize 0%nat, false. clear.
  induction d as [|d IH]; intros n b.
  - destruct full as [|a l]; intros HL h t E; simpl in E; [discriminate|]. inversion E; subst.
    destruct t as [|g t]; auto. simpl in HL. destruct HL as (_ & H1 & _).
    destruct (h_type h) eqn:EH; split; intros; try lia; congruence.
  - intros HL h t E. revert n b HL E. induction full as [|a l IHl]; intros; simpl in E; [discriminate|].
    clear IHl. revert d IH E. intros d IH E.
    destruct HL as [_ HL]. clear IH. revert h t E.
    generalize dependent (h_level a). generalize (match h_type a with HT_SUBSTACK => true | _ => false end).
    revert d. induction l as [|c l IHl]; intros d b' n' HL h t E; [rewrite skipn_nil in E; discriminate|].
    destruct d; simpl in E.
    + inversion E; subst. destruct t as [|g t]; auto. simpl in HL. destruct HL as (_ & H1 & _).
      destruct (h_type h) eqn:EH; split; intros; try lia; congruence.
    + simpl in HL. destruct HL as [_ HL]. eapply IHl; eauto.
Qed.

Lemma safe_next : forall flags prev depth h t i st subs (s : wst W) t' d' i' st' subs' s',
  skipn depth full = h :: t -> safeP prev depth i st subs s ->
  step call flags uc 0 prev depth h t i st subs s = StNext t' d' i' st' subs' s' ->
  safeP (h_level h) d' i' st' subs' s'.
Proof.
  intros flags prev depth h t i st subs s t' d' i' st' subs' s' E (H1 & H2 & H3) H.
  assert (HSK : skipn d' full = t') by (apply (prev_ok_step W call full _ _ _ _ _ _ _ _ _ _ _ _ _ _ _ _ E H)).
  rewrite E in H3. destruct H3 as [H3 H4].
  destruct (open_filled prev h i st subs t depth E H1 H3 H4) as (subs1 & O1 & O2 & O3).
  rewrite step_eq, O1 in H.
  pose proof (level_next _ _ _ E) as HLN.
  unfold safeP. rewrite HSK.
  destruct (attempt call flags depth h s) as [[r s1]|] eqn:EA.
  - destruct (attempt_trace _ _ _ _ _ _ _ _ EA) as (_ & I2 & _).
    pose proof (attempt_len _ _ _ _ _ _ _ _ EA) as HT.
    destruct (r =? PAM_INCOMPLETE); [discriminate|]. unfold after in H.
    destruct (freeze uc h r s1) as [[c s2]| |] eqn:EF; try discriminate.
    destruct (freeze_trace _ _ _ _ _ _ _ EF) as (_ & _ & _ & _ & F5).
    destruct (select h r c) as [[r' a]| |] eqn:ES; try discriminate.
    apply perform_next in H.
    2:{ destruct t; auto. apply HLN; auto. }
    destruct H as (-> & P2 & _ & _ & P3). split; auto. split; [congruence|].
    destruct t' as [|g q]; auto. split; [lia|]. intros j Hj. apply O3. lia.
  - assert (Q : t' = t /\ subs' = subs1 /\ s' = s) by (inversion H; auto). destruct Q as (-> & -> & ->). split; auto. split; auto. destruct t as [|g q]; auto.
    split; [lia|]. intros j Hj. apply O3. lia.
Qed.

Lemma freeze_ok : forall h r (s : wst W), length (cache s) = nc -> (h_cell h < nc)%nat -> (h_cellp h < nc)%nat ->
  exists c s', freeze uc h r s = Ok (c, s').
Proof.
  intros h r s HC H1 H2. unfold freeze. destruct uc; [| |congruence].
  - destruct (upd_some _ (cache s) (h_cell h) r) as [c E]; [lia|]. rewrite E. eauto.
  - destruct (nth_error (cache s) (h_cellp h)) as [k|] eqn:E.
    + destruct (k =? -1); eauto.
    + apply nth_error_None in E. lia.
Qed.

Lemma safe_out : forall flags prev depth h t i st subs (s : wst W) o,
  skipn depth full = h :: t -> safeP prev depth i st subs s ->
  step call flags uc 0 prev depth h t i st subs s = StOut o -> out_inv W safeQ False o.
Proof.
  intros flags prev depth h t i st subs s o E (H1 & H2 & H3) H.
  rewrite E in H3. destruct H3 as [H3 H4].
  destruct (open_filled prev h i st subs t depth E H1 H3 H4) as (subs1 & O1 & O2 & O3).
  destruct (full_in _ _ _ E) as (L1 & L2 & L3 & L4).
  pose proof (step_out _ _ _ _ _ _ _ _ _ _ _ _ _ H) as HO.
  destruct HO as [->|(subs2 & s1 & -> & O4 & O5)].
  - exfalso. rewrite step_eq, O1 in H.
    destruct (attempt call flags depth h s) as [[r s1]|] eqn:EA; [|discriminate].
    destruct (attempt_trace _ _ _ _ _ _ _ _ EA) as (_ & I2 & _).
    destruct (r =? PAM_INCOMPLETE); [discriminate|]. unfold after in H.
    destruct (freeze_ok h r s1 ltac:(congruence) L3 L4) as (c & s2 & EF). rewrite EF in H.
    unfold select in H. destruct ((c <? 0) || (32 <=? c)) eqn:EC.
    + apply perform_out in H. destruct H as (_ & H & _). discriminate.
    + apply orb_false_iff in EC. destruct EC as [C1 C2]. apply Z.ltb_ge in C1. apply Z.leb_gt in C2.
      destruct (nth_error (h_actions h) (Z.to_nat c)) as [a|] eqn:EN.
      * apply perform_out in H. destruct H as (_ & _ & H). destruct (O3 (h_level h) (le_n _)) as (x & Ex).
        apply (H x Ex).
      * apply nth_error_None in EN. lia.
  - rewrite O1 in O4. inversion O4; subst subs2.
    destruct (attempt_trace _ _ _ _ _ _ _ _ O5) as (_ & I2 & _).
    split; auto. split; [congruence|]. exists h, t. auto.
Qed.

Lemma safe_resume : forall f s, safeQ f s ->
  safeP (pred_level full (f_depth f)) (f_depth f) (f_imp f) (f_status f) (f_subs f) s.
Proof.
  intros f s (H1 & H2 & h & t & E & H3). split; auto. split; auto. rewrite E. split.
  - unfold pred_level. destruct (f_depth f) as [|d] eqn:ED.
    + destruct HF as [HL _]. simpl in E. rewrite E in HL. simpl in HL. lia.
    + destruct (nth_error full d) as [g|] eqn:EN.
      * assert (X : skipn d full = g :: h :: t).
        { clear - E EN. revert full E EN. induction d as [|d IH]; intros [|a l] E EN; simpl in *; try discriminate.
          - inversion EN; subst; auto.
          - apply IH; auto. }
        pose proof (level_next _ _ _ X) as HLN. simpl in HLN. lia.
      * apply nth_error_None in EN. rewrite skipn_all2 in E by lia. discriminate.
  - intros j Hj. apply H3. lia.
Qed.

Lemma safe_fresh : forall s : wst W, length (cache s) = nc -> safeP 0 0 IUndef PAM_PERM_DENIED fresh_subs s.
Proof.
  intros s HC. split; [reflexivity|]. split; auto. simpl.
  destruct full as [|h t] eqn:EF; auto. destruct HF as [HL _]. simpl in HL. destruct HL as [HL _]. split; [lia|].
  intros j Hj. replace j with 0%nat by lia. simpl. eauto.
Qed.

(** A fresh or resumed walk is defined and leaves a resumable state. *)
Lemma safe_walk : forall oom flags resumed (s : wst W),
  length (cache s) = nc -> (forall f, resumed = Some f -> safeQ f s) ->
  match dispatch_aux call oom flags uc full resumed s with
  | AFin _ s' => length (cache s') = nc
  | AInc f s' => safeQ f s' /\ full <> []
  | _ => False
  end.
Proof.
  intros oom flags resumed s HC HR.
  destruct full as [|h0 t0] eqn:EFull; [simpl; auto|]. rewrite <- EFull in *.
  assert (HNE : full <> []) by (rewrite EFull; discriminate).
  destruct resumed as [f|].
  - specialize (HR f eq_refl).
    assert (HD : (f_depth f <= length full)%nat).
    { destruct HR as (_ & _ & h & t & E & _). destruct (Nat.le_gt_cases (f_depth f) (length full)); auto.
      rewrite skipn_all2 in E by lia. discriminate. }
    pose proof (resumed_inv W call full uc safeP safeQ False safe_next safe_out safe_resume oom flags f s HNE HR HD) as H.
    destruct (dispatch_aux call oom flags uc full (Some f) s); simpl in H; try contradiction; auto.
    destruct H as (? & ? & ? & ? & ? & (H1 & H2 & H3) & _). auto.
  - pose proof (fresh_inv W call full uc safeP safeQ False safe_next safe_out safe_resume oom flags s HNE (safe_fresh s HC)) as H.
    destruct (dispatch_aux call oom flags uc full None s); simpl in H; try contradiction; auto.
    destruct H as [(_ & _ & ->)|(? & ? & ? & ? & ? & (H1 & H2 & H3) & _)]; auto.
Qed.
End Safe.

(** ** Credit, and PAM_INCOMPLETE only for suspended calls *)
Section Credit.
Variable W : Type.
Variable call : handler -> Z -> W -> W * Z.
Variable full : list handler.
Variable uc : frozen.

Definition no31 (st : Z) (subs : subst) : Prop :=
  st <> PAM_INCOMPLETE /\ forall j k, nth_error subs j <> Some (Some (k, PAM_INCOMPLETE)).

Definition credP (prev depth : nat) (i : imp) (st : Z) (subs : subst) (s : wst W) : Prop :=
  good_state uc full i st (trace s) /\ good_subs uc full subs (trace s) /\ no31 st subs.
Definition credQ (f : former) (s : wst W) : Prop :=
  credP 0 0 (f_imp f) (f_status f) (f_subs f) s /\ (f_depth f <= length full)%nat.

Lemma open_no31 : forall prev h i st subs subs1, no31 st subs -> open_subs prev h i st subs = Some subs1 -> no31 st subs1.
Proof.
  intros prev h i st subs subs1 [H1 H2] E. unfold open_subs in E. destruct (prev <? h_level h)%nat; [|inversion E; subst; split; auto].
  split; auto. intros j k. destruct (Nat.eq_dec (h_level h) j) as [<-|NE].
  - rewrite (upd_same _ _ _ _ _ E). congruence.
  - rewrite (upd_other _ _ _ _ _ _ E NE). apply H2.
Qed.

Lemma perform_no31 : forall lvl depth t i st subs r c a (s : wst W) t' d' i' st' subs' s',
  no31 st subs -> r <> PAM_INCOMPLETE ->
  perform uc lvl depth t i st subs r c a s = StNext t' d' i' st' subs' s' -> no31 st' subs'.
Proof.
  intros lvl depth t i st subs r c a s t' d' i' st' subs' s' [N1 N2] NR H.
  unfold perform in H.
  assert (OV : snd (ok_verdict i st r c) <> 31).
  { unfold ok_verdict. destruct (ok_applies i st && (negb (r =? PAM_IGNORE) || (c =? r))); auto. }
  assert (BV : snd (bad_verdict i st r) <> 31).
  { unfold bad_verdict. destruct (imp_eqb i INeg); simpl; auto. destruct (r =? 25); auto. lia. }
  destruct (a =? ACT_RESET).
  { destruct (nth_error subs lvl) as [[[i1 st1]|]|] eqn:E; inversion H; subst. split; auto.
    intros ->. apply (N2 _ _ E). }
  destruct ((a =? ACT_OK) || (a =? ACT_DONE)).
  { destruct (ok_verdict i st r c) as [i1 st1]. simpl in OV.
    destruct (imp_eqb i1 IPos && (a =? ACT_DONE)).
    - destruct (skip_rest lvl t (S depth)) as [t1 d1]. inversion H; subst. split; auto.
    - inversion H; subst. split; auto. }
  destruct ((a =? ACT_BAD) || (a =? ACT_DIE)).
  { destruct (bad_verdict i st r) as [i1 st1]. simpl in BV. destruct (a =? ACT_DIE).
    - destruct (skip_rest lvl t (S depth)) as [t1 d1]. inversion H; subst. split; auto.
    - inversion H; subst. split; auto. }
  destruct (a =? ACT_IGNORE). { inversion H; subst. split; auto. }
  destruct (0 <? a).
  2:{ inversion H; subst. split; auto. lia. }
  destruct (do_jump lvl false a t (S depth)) as [[t1 d1] a1].
  assert (HV : let q := match uc with PLEASE_FREEZE => (i, st) | _ => ok_verdict i st r c end in snd q <> 31).
  { destruct uc; auto. }
  destruct (match uc with PLEASE_FREEZE => (i, st) | _ => ok_verdict i st r c end) as [i1 st1]. simpl in HV.
  destruct (a1 =? 0); inversion H; subst; split; auto; lia.
Qed.

Lemma cred_next : forall flags prev depth h t i st subs (s : wst W) t' d' i' st' subs' s',
  skipn depth full = h :: t -> credP prev depth i st subs s ->
  step call flags uc 0 prev depth h t i st subs s = StNext t' d' i' st' subs' s' ->
  credP (h_level h) d' i' st' subs' s'.
Proof.
  intros flags prev depth h t i st subs s t' d' i' st' subs' s' E (H1 & H2 & H3) H.
  destruct (step_good W call uc full flags _ _ _ _ _ _ _ _ _ _ _ _ _ _ E H1 H2 H) as (G1 & G2 & _).
  split; auto. split; auto.
  rewrite step_eq in H. destruct (open_subs prev h i st subs) as [subs1|] eqn:EO; [|discriminate].
  pose proof (open_no31 _ _ _ _ _ _ H3 EO) as H4.
  destruct (attempt call flags depth h s) as [[r s1]|]; [|inversion H; subst; auto].
  destruct (Z.eqb_spec r PAM_INCOMPLETE); [discriminate|]. unfold after in H.
  destruct (freeze uc h r s1) as [[c s2]| |]; try discriminate.
  destruct (select h r c) as [[r' a]| |] eqn:ES; try discriminate.
  eapply perform_no31; [exact H4| |exact H].
  apply select_cases in ES. destruct ES as [[-> _]|[-> _]]; auto. lia.
Qed.

Lemma cred_out : forall flags prev depth h t i st subs (s : wst W) o,
  skipn depth full = h :: t -> credP prev depth i st subs s ->
  step call flags uc 0 prev depth h t i st subs s = StOut o -> out_inv W credQ True o.
Proof.
  intros flags prev depth h t i st subs s o E (H1 & H2 & H3) H.
  apply step_out in H. destruct H as [->|(subs1 & s1 & -> & O1 & O2)]; [exact I|].
  destruct (attempt_trace _ _ _ _ _ _ _ _ O2) as (I1 & _).
  split; simpl.
  - split; [eapply good_mono; eauto|]. split; [|eapply open_no31; eauto].
    apply good_subs_mono with (tr := trace s); auto.
    unfold open_subs in O1. destruct (prev <? h_level h)%nat; [|inversion O1; subst; auto].
    intros j i0 st0 EN. destruct (Nat.eq_dec (h_level h) j) as [<-|NE].
    + rewrite (upd_same _ _ _ _ _ O1) in EN. inversion EN; subst; auto.
    + rewrite (upd_other _ _ _ _ _ _ O1 NE) in EN. eapply H2; eauto.
  - destruct (Nat.le_gt_cases depth (length full)); auto. rewrite skipn_all2 in E by lia. discriminate.
Qed.

Lemma cred_walk : forall oom flags resumed (s : wst W),
  (forall f, resumed = Some f -> credQ f s) ->
  match dispatch_aux call oom flags uc full resumed s with
  | AFin z s' => z <> PAM_INCOMPLETE /\ (z = PAM_SUCCESS -> credited uc full (trace s'))
  | AInc f s' => credQ f s' /\ full <> []
  | AUB => True
  | AFuel => False
  end.
Proof.
  intros oom flags resumed s HR.
  assert (FIN : forall z s', end_inv W full credP credQ True (AFin z s') ->
            z <> PAM_INCOMPLETE /\ (z = PAM_SUCCESS -> credited uc full (trace s'))).
  { intros z s' (p & d & i & st & subs & (H1 & H2 & H3 & H4) & _ & ->). unfold finish.
    destruct (Z.eqb_spec st 0) as [->|NE]; simpl.
    - destruct i; simpl; split; try lia. intros _. apply H1; auto.
    - split; auto. congruence. }
  destruct full as [|h0 t0] eqn:EFull; [simpl; split; [lia|discriminate]|]. rewrite <- EFull in *.
  assert (HNE : full <> []) by (rewrite EFull; discriminate).
  destruct resumed as [f|].
  - specialize (HR f eq_refl).
    pose proof (resumed_inv W call full uc credP credQ True cred_next cred_out
                  (fun f s H => match H with conj A _ => A end) oom flags f s HNE HR (proj2 HR)) as H.
    destruct (dispatch_aux call oom flags uc full (Some f) s); simpl in H; auto.
  - assert (HP : credP 0 0 IUndef PAM_PERM_DENIED fresh_subs s).
    { split; [intro; discriminate|]. split.
      - intros j i st E. intro; subst. destruct j as [|j]; simpl in E; [inversion E|].
        repeat (destruct j as [|j]; simpl in E; [discriminate|]). destruct j; discriminate.
      - split; [lia|]. intros j k E. destruct j as [|j]; simpl in E; [inversion E|].
        repeat (destruct j as [|j]; simpl in E; [discriminate|]). destruct j; discriminate. }
    pose proof (fresh_inv W call full uc credP credQ True cred_next cred_out
                  (fun f s H => match H with conj A _ => A end) oom flags s HNE HP) as H.
    destruct (dispatch_aux call oom flags uc full None s); simpl in H; auto.
    destruct H as [(-> & _)|H]; [split; [lia|discriminate]|]. apply FIN. exact H.
Qed.
End Credit.

(** ** Fatal answers are not forgotten *)

(** No answer of this call selected a "reset". *)
Definition no_reset_used (full : list handler) (tr : list (nat * Z)) : Prop :=
  forall d r h, In (d, r) tr -> nth_error full d = Some h -> 0 <= r < 32 ->
    nth_error (h_actions h) (Z.to_nat r) <> Some ACT_RESET.

Section Stuck.
Variable W : Type.
Variable call : handler -> Z -> W -> W * Z.
Variable full : list handler.
Hypothesis HL : levels_ok 0 false full.
(** Lines that are not calls to a module function have no "reset". *)
Hypothesis HNR : forall h, In h full -> is_call h = false -> no_reset h.

Definition stuckP (prev depth : nat) (i : imp) (st : Z) (subs : subst) (s : wst W) : Prop :=
  doomed full (trace s) -> no_reset_used full (trace s) -> i = INeg.
Definition stuckQ (f : former) (s : wst W) : Prop :=
  stuckP 0 0 (f_imp f) 0 [] s /\ (f_depth f <= length full)%nat.

Lemma no_reset_used_incl : forall tr tr', incl tr tr' -> no_reset_used full tr' -> no_reset_used full tr.
Proof. intros tr tr' H N d r h H1. apply N. auto. Qed.

Lemma attempt_traces : forall flags depth h (s : wst W) r s1,
  attempt call flags depth h s = Some (r, s1) ->
  (trace s1 = trace s /\ is_call h = false) \/ (trace s1 = (depth, r) :: trace s /\ is_call h = true).
Proof.
  intros flags depth h s r s1 H. unfold attempt, is_call in *.
  destruct (h_type h); try discriminate; try (destruct (h_func h); [destruct (call h flags (ww s))|]);
    inversion H; subst; auto.
Qed.

Lemma stuck_next : forall flags prev depth h t i st subs (s : wst W) t' d' i' st' subs' s',
  skipn depth full = h :: t -> stuckP prev depth i st subs s ->
  step call flags PLEASE_FREEZE 0 prev depth h t i st subs s = StNext t' d' i' st' subs' s' ->
  stuckP (h_level h) d' i' st' subs' s'.
Proof.
  intros flags prev depth h t i st subs s t' d' i' st' subs' s' HF HI H HD HNU.
  rewrite step_eq in H.
  destruct (open_subs prev h i st subs) as [subs1|] eqn:EO; [|discriminate].
  destruct (attempt call flags depth h s) as [[r s1]|] eqn:EA; [|inversion H; subst; auto].
  pose proof (attempt_len _ _ _ _ _ _ _ _ EA) as HT.
  destruct (r =? PAM_INCOMPLETE) eqn:EI; [discriminate|]. apply Z.eqb_neq in EI.
  pose proof (attempt_traces _ _ _ _ _ _ EA) as HTR.
  unfold after in H.
  destruct (freeze PLEASE_FREEZE h r s1) as [[c s2]| |] eqn:EF; try discriminate.
  destruct (freeze_trace _ _ _ _ _ _ _ EF) as (F1 & F2 & F3 & F4 & F5). specialize (F4 eq_refl). subst c.
  destruct (select h r r) as [[r' a]| |] eqn:ES; try discriminate.
  assert (HNX : match t with [] => True | g :: _ => (h_level g <= h_level h)%nat end) by (eapply levels_ok_skipn; eauto).
  assert (P2 : trace s' = trace s2) by (apply perform_next in H; tauto).
  rewrite P2, F1 in HD, HNU.
  assert (HIN : In h full) by (eapply nth_error_In; eapply nth_error_skipn; eauto).
  assert (Ha : a <> ACT_RESET).
  { apply select_cases in ES. destruct ES as [[_ ->]|(_ & HC & HN)]; [discriminate|].
    intro; subst. destruct HTR as [[_ HTR]|[HTR _]].
    - apply (HNR h HIN HTR). eapply nth_error_In; eauto.
    - rewrite HTR in HNU. apply (HNU depth r h); auto; [left; auto|eapply nth_error_skipn; eauto]. }
  assert (HFat : fatal h t r -> a = ACT_BAD \/ a = ACT_DIE \/ room (h_level h) t < a).
  { apply select_cases in ES. intro FT. destruct ES as [[_ ->]|(_ & HC & HN)]; [auto|].
    destruct FT as [?|[?|(a0 & HA0 & ?)]]; try lia. rewrite HN in HA0. inversion HA0; subst. auto. }
  assert (HP' : (i = INeg -> i' = INeg) /\
                (a = ACT_BAD \/ a = ACT_DIE \/ room (h_level h) t < a -> i' = INeg)).
  { apply select_cases in ES. destruct ES as [[-> ->]|(-> & HC & HN)].
    - unfold perform in H. simpl in H.
      assert (HV : fst (bad_verdict i st 6) = INeg) by (unfold bad_verdict; destruct i; reflexivity).
      destruct (bad_verdict i st 6) as [i1 st1]. simpl in HV. subst i1. inversion H; subst. auto.
    - eapply (perform_stuck W full) in H; eauto. tauto. }
  destruct HP' as (P1 & P3).
  destruct HTR as [[HTR _]|[HTR _]]; rewrite HTR in HD, HNU.
  - apply P1. apply HI; auto.
  - destruct (doomed_new _ _ _ _ _ _ HF HD) as [HD1|[_ HD1]]; auto.
    apply P1. apply HI; auto. eapply no_reset_used_incl; [|exact HNU]. apply incl_tl, incl_refl.
Qed.

Lemma stuck_out : forall flags prev depth h t i st subs (s : wst W) o,
  skipn depth full = h :: t -> stuckP prev depth i st subs s ->
  step call flags PLEASE_FREEZE 0 prev depth h t i st subs s = StOut o -> out_inv W stuckQ True o.
Proof.
  intros flags prev depth h t i st subs s o E HP H.
  apply step_out in H. destruct H as [->|(subs1 & s1 & -> & O1 & O2)]; [exact I|].
  split; simpl.
  - intros HD HNU. destruct (attempt_traces _ _ _ _ _ _ O2) as [[HTR _]|[HTR _]]; rewrite HTR in HD, HNU; [apply HP; auto|].
    apply HP.
    + destruct HD as (d & r0 & h0 & rest & [H1|H1] & H2 & H3); [congruence|]. exists d, r0, h0, rest. auto.
    + eapply no_reset_used_incl; [|exact HNU]. apply incl_tl, incl_refl.
  - destruct (Nat.le_gt_cases depth (length full)); auto. rewrite skipn_all2 in E by lia. discriminate.
Qed.

Lemma stuck_walk : forall oom flags resumed (s : wst W),
  (forall f, resumed = Some f -> stuckQ f s) -> (resumed = None -> trace s = []) ->
  match dispatch_aux call oom flags PLEASE_FREEZE full resumed s with
  | AFin z s' => z = PAM_SUCCESS -> no_reset_used full (trace s') -> ~ doomed full (trace s')
  | AInc f s' => stuckQ f s'
  | AUB => True
  | AFuel => False
  end.
Proof.
  intros oom flags resumed s HR HTR.
  assert (FIN : forall z s', end_inv W full stuckP stuckQ True (AFin z s') ->
            z = PAM_SUCCESS -> no_reset_used full (trace s') -> ~ doomed full (trace s')).
  { intros z s' (p & d & i & st & subs & H1 & _ & ->) HZ HNU HD. rewrite (H1 HD HNU) in HZ. unfold finish in HZ.
    destruct (Z.eqb_spec st 0) as [->|NE]; simpl in HZ; congruence. }
  destruct full as [|h0 t0] eqn:EFull; [simpl; discriminate|]. rewrite <- EFull in *.
  assert (HNE : full <> []) by (rewrite EFull; discriminate).
  destruct resumed as [f|].
  - specialize (HR f eq_refl).
    pose proof (resumed_inv W call full PLEASE_FREEZE stuckP stuckQ True stuck_next stuck_out
                  (fun f s H => match H with conj A _ => A end) oom flags f s HNE HR (proj2 HR)) as H.
    destruct (dispatch_aux call oom flags PLEASE_FREEZE full (Some f) s); simpl in H; auto.
    apply FIN. exact H.
  - assert (HP : stuckP 0 0 IUndef PAM_PERM_DENIED fresh_subs s).
    { intros (d & r & h & rest & H & _). rewrite HTR in H by auto. destruct H. }
    pose proof (fresh_inv W call full PLEASE_FREEZE stuckP stuckQ True stuck_next stuck_out
                  (fun f s H => match H with conj A _ => A end) oom flags s HNE HP) as H.
    destruct (dispatch_aux call oom flags PLEASE_FREEZE full None s); simpl in H; auto.
    destruct H as [(-> & _)|H]; [discriminate|]. apply FIN. exact H.
Qed.
End Stuck.

(** ** Histories of calls *)

(** One management call as the application sees it, with its surroundings. *)
Record req := mkReq { q_audit : audit_env; q_init : Z; q_oom : bool; q_flags : Z; q_choice : Z }.

Section Hist.
Variable W : Type.
Variable call : handler -> Z -> W -> W * Z.

Definition serve (q : req) (p : dpam W) : res (Z * dpam W) :=
  dispatch_audited call (q_audit q) (q_init q) (q_oom q) (q_flags q) (q_choice q) p.

Fixpoint history (qs : list req) (p : dpam W) : res (list Z * dpam W) :=
  match qs with
  | [] => Ok ([], p)
  | q :: t =>
      match serve q p with
      | Ok (r, p') => match history t p' with Ok (rs, p'') => Ok (r :: rs, p'') | UB => UB | OutOfFuel => OutOfFuel end
      | UB => UB
      | OutOfFuel => OutOfFuel
      end
  end.

(** A handle with no suspended call. *)
Definition idle (p : dpam W) : Prop := dp_from_module p = false /\ dp_fchoice p = NOT_STACKED.

(** What a single dispatch does, in one place. *)
Lemma dispatch_cases : forall init_rv oom flags choice (p : dpam W),
  (exists r, dispatch call init_rv oom flags choice p = Ok (r, p) /\ r <> PAM_SUCCESS /\
     (dp_from_module p = true \/ init_rv <> PAM_SUCCESS \/ stack_for p choice = None \/
      (dp_fchoice p <> NOT_STACKED /\ dp_fchoice p <> choice))) \/
  (dp_from_module p = false /\ init_rv = PAM_SUCCESS /\ (dp_fchoice p = NOT_STACKED \/ dp_fchoice p = choice) /\
   exists h, stack_for p choice = Some h /\
   dispatch call init_rv oom flags choice p =
    let resumed := negb (dp_fchoice p =? NOT_STACKED) in
    let s := if resumed then dp_st p else mkW (ww (dp_st p)) (cache (dp_st p)) [] [] in
    match dispatch_aux call oom flags (chain_mode choice) h (if resumed then Some (dp_former p) else None) s with
    | AFin st s' =>
        Ok (st, mkD false (dp_conf p) (dp_other p)
                  (if st =? PAM_INCOMPLETE then choice else NOT_STACKED)
                  (match h with [] => dp_former p | _ => if resumed then no_former else dp_former p end) s')
    | AInc f s' => Ok (PAM_INCOMPLETE, mkD false (dp_conf p) (dp_other p) choice f s')
    | AUB => UB
    | AFuel => OutOfFuel
    end).
Proof.
  intros init_rv oom flags choice p. unfold dispatch.
  destruct (dp_from_module p) eqn:E1; [left; exists 4; repeat split; auto; lia|].
  destruct (Z.eqb_spec init_rv PAM_SUCCESS) as [->|NI]; simpl negb; cbv iota.
  2:{ left. exists init_rv. repeat split; auto. }
  destruct (stack_for p choice) as [h|] eqn:E2.
  2:{ left. exists 26. repeat split; auto; lia. }
  destruct (Z.eqb_spec (dp_fchoice p) NOT_STACKED) as [E3|E3]; simpl negb; simpl andb.
  - right. repeat split; auto. exists h. split; auto.
  - destruct (Z.eqb_spec (dp_fchoice p) choice) as [E4|E4]; simpl negb; cbv iota.
    + right. repeat split; auto. exists h. split; auto.
    + left. exists 26. repeat split; auto; lia.
Qed.

Lemma audit_success : forall e choice r g, auditlog e choice r g = PAM_SUCCESS -> r = PAM_SUCCESS.
Proof.
  intros e choice r g H. unfold auditlog in H. destruct e as [| |a w]; auto; [discriminate|].
  destruct ((1 <=? choice) && (choice <=? 6) || (choice =? ACT_DONE)); simpl in H.
  - destruct w; [|discriminate].
    destruct ((r =? 0) && negb match g with [] => true | _ :: _ => false end && negb a); [discriminate|auto].
  - destruct w; discriminate.
Qed.

Lemma serve_dispatch : forall q p r p', serve q p = Ok (r, p') ->
  exists r0, dispatch call (q_init q) (q_oom q) (q_flags q) (q_choice q) p = Ok (r0, p') /\
             (r = PAM_SUCCESS -> r0 = PAM_SUCCESS).
Proof.
  intros q p r p' H. unfold serve, dispatch_audited in H.
  destruct (dispatch call (q_init q) (q_oom q) (q_flags q) (q_choice q) p) as [[r0 p0]| |]; try discriminate.
  destruct (negb (q_choice q =? 6) || negb (Z.land (q_flags q) 8192 =? 0) || negb (r0 =? 0));
    inversion H; subst; eexists; (split; [reflexivity|]); auto. intro E. eapply audit_success; eauto.
Qed.

Lemma serve_defined : forall q p,
  (exists x, dispatch call (q_init q) (q_oom q) (q_flags q) (q_choice q) p = Ok x) -> exists x, serve q p = Ok x.
Proof.
  intros q p [[r0 p0] E]. unfold serve, dispatch_audited. rewrite E.
  destruct (negb (q_choice q =? 6) || negb (Z.land (q_flags q) 8192 =? 0) || negb (r0 =? 0)); eauto.
Qed.

(** *** Credit over histories *)
Definition credH (p : dpam W) : Prop :=
  dp_fchoice p <> NOT_STACKED ->
  exists h, stack_for p (dp_fchoice p) = Some h /\ h <> [] /\ credQ W h (chain_mode (dp_fchoice p)) (dp_former p) (dp_st p).

Lemma stack_for_eq : forall (p : dpam W) b c f (s : wst W) choice, stack_for (mkD b (dp_conf p) (dp_other p) c f s) choice = stack_for p choice.
Proof. reflexivity. Qed.

Lemma dispatch_cred : forall init_rv oom flags choice p r p', credH p ->
  dispatch call init_rv oom flags choice p = Ok (r, p') ->
  credH p' /\ (r = PAM_SUCCESS -> dp_fchoice p' = NOT_STACKED /\
    exists h, stack_for p' choice = Some h /\ credited (chain_mode choice) h (trace (dp_st p'))) /\
  (dp_from_module p = false -> init_rv = PAM_SUCCESS -> stack_for p choice <> None ->
   dp_fchoice p = NOT_STACKED \/ dp_fchoice p = choice ->
   choice <> NOT_STACKED -> (r = PAM_INCOMPLETE <-> dp_fchoice p' <> NOT_STACKED)).
Proof.
  intros init_rv oom flags choice p r p' HC H.
  destruct (dispatch_cases init_rv oom flags choice p) as [(r0 & E & HN & HX)|(E1 & E2 & E3 & h & E4 & E)]; rewrite E in H.
  - inversion H; subst. split; auto. split; [congruence|]. intros A B C D. destruct HX as [?|[?|[?|[? ?]]]]; try congruence. destruct D; congruence.
  - cbv zeta in H. set (rsm := negb (dp_fchoice p =? NOT_STACKED)) in *.
    set (s := if rsm then dp_st p else mkW (ww (dp_st p)) (cache (dp_st p)) [] []) in *.
    assert (HR : forall f, (if rsm then Some (dp_former p) else None) = Some f -> credQ W h (chain_mode choice) f s).
    { intros f Ef. subst s. subst rsm. destruct (Z.eqb_spec (dp_fchoice p) NOT_STACKED) as [E5|E5]; simpl in *; [discriminate|].
      inversion Ef; subst. destruct (HC E5) as (h' & Hh & _ & HQ). destruct E3 as [E3|E3]; [congruence|].
      rewrite E3 in *. rewrite E4 in Hh. inversion Hh; subst. exact HQ. }
    pose proof (cred_walk W call h (chain_mode choice) oom flags _ s HR) as HW.
    destruct (dispatch_aux call oom flags (chain_mode choice) h (if rsm then Some (dp_former p) else None) s) as [z s'|f s'| |]; try discriminate.
    + inversion H; subst. destruct HW as [HW1 HW2].
      replace (r =? 31) with false by (symmetry; apply Z.eqb_neq; auto).
      split; [intro Q; simpl in Q; congruence|]. simpl. split.
      * intros ->. split; auto. exists h. rewrite stack_for_eq. auto.
      * intros. split; intro; congruence.
    + inversion H; subst. destruct HW as [HW1 HW2]. split.
      * intro Q. simpl in *. exists h. rewrite stack_for_eq. auto.
      * split; [discriminate|]. simpl. intros. tauto.
Qed.

Lemma history_cred : forall qs p rs p', credH p -> history qs p = Ok (rs, p') -> credH p'.
Proof.
  induction qs as [|q qs IH]; intros p rs p' HC H; simpl in H; [inversion H; subst; auto|].
  destruct (serve q p) as [[r p1]| |] eqn:ES; try discriminate.
  destruct (history qs p1) as [[rs1 p2]| |] eqn:EH; try discriminate. inversion H; subst.
  apply serve_dispatch in ES. destruct ES as (r0 & ED & _).
  eapply IH; [|exact EH]. eapply dispatch_cred in ED; eauto. tauto.
Qed.

(** *** Definedness over histories *)
Definition tables_ok (nc : nat) (p : dpam W) : Prop :=
  forall choice h, (pick (dp_conf p) choice = Some h \/ pick (dp_other p) choice = Some h) -> stack_ok nc h.

Definition safeH (nc : nat) (p : dpam W) : Prop :=
  tables_ok nc p /\ length (cache (dp_st p)) = nc /\
  (dp_fchoice p <> NOT_STACKED ->
   exists h, stack_for p (dp_fchoice p) = Some h /\ h <> [] /\ safeQ W h nc (dp_former p) (dp_st p)).

Lemma stack_for_ok : forall nc p choice h, tables_ok nc p -> stack_for p choice = Some h -> stack_ok nc h.
Proof.
  intros nc p choice h HT E. unfold stack_for in E.
  destruct (pick (dp_conf p) choice) as [[|a l]|] eqn:EP; try discriminate.
  - apply (HT choice); auto.
  - inversion E; subst. apply (HT choice); auto.
Qed.

Lemma chain_mode_ok : forall c, chain_mode c <> MUST_BE_FROZEN.
Proof. intro c. unfold chain_mode. destruct ((c =? 2) || (c =? 5)); discriminate. Qed.

Lemma dispatch_safe : forall nc init_rv oom flags choice p, safeH nc p -> credH p ->
  exists r p', dispatch call init_rv oom flags choice p = Ok (r, p') /\ safeH nc p' /\ credH p'.
Proof.
  intros nc init_rv oom flags choice p HS HC.
  assert (G : exists r p', dispatch call init_rv oom flags choice p = Ok (r, p') /\ safeH nc p').
  2:{ destruct G as (r & p' & E & G). exists r, p'. split; auto. split; auto. eapply dispatch_cred in E; eauto. tauto. }
  destruct (dispatch_cases init_rv oom flags choice p) as [(r0 & E & HN & HX)|(E1 & E2 & E3 & h & E4 & E)]; [eauto|].
  destruct HS as (H1 & H2 & H3). rewrite E. cbv zeta.
  set (rsm := negb (dp_fchoice p =? NOT_STACKED)) in *.
  set (s := if rsm then dp_st p else mkW (ww (dp_st p)) (cache (dp_st p)) [] []) in *.
  assert (HCs : length (cache s) = nc) by (subst s; destruct rsm; auto).
  assert (HR : forall f, (if rsm then Some (dp_former p) else None) = Some f ->
                 safeQ W h nc f s /\ credQ W h (chain_mode choice) f s).
  { intros f Ef. subst s. subst rsm. destruct (Z.eqb_spec (dp_fchoice p) NOT_STACKED) as [E5|E5]; simpl in *; [discriminate|].
    inversion Ef; subst. destruct (H3 E5) as (h' & Hh & _ & HQ). destruct (HC E5) as (h2 & Hh2 & _ & HQ2).
    destruct E3 as [E3|E3]; [congruence|].
    rewrite E3 in *. rewrite E4 in Hh, Hh2. inversion Hh; inversion Hh2; subst. auto. }
  pose proof (safe_walk W call h nc (chain_mode choice) (chain_mode_ok choice) (stack_for_ok _ _ _ _ H1 E4) oom flags _ s HCs
               (fun f e => proj1 (HR f e))) as HW.
  pose proof (cred_walk W call h (chain_mode choice) oom flags _ s (fun f e => proj2 (HR f e))) as HCW.
  destruct (dispatch_aux call oom flags (chain_mode choice) h (if rsm then Some (dp_former p) else None) s) as [z s'|f s'| |] eqn:EA; try contradiction.
  - do 2 eexists. split; [reflexivity|]. split; [exact H1|]. split; [exact HW|]. simpl.
    destruct HCW as [HCW _]. replace (z =? 31) with false by (symmetry; apply Z.eqb_neq; auto). congruence.
  - do 2 eexists. split; [reflexivity|]. destruct HW as [HW1 HW2].
    split; [exact H1|]. split; [apply HW1|]. simpl. intros _. exists h. rewrite stack_for_eq. auto.
Qed.

Lemma history_safe : forall nc qs p, safeH nc p -> credH p ->
  exists rs p', history qs p = Ok (rs, p') /\ safeH nc p' /\ credH p'.
Proof.
  intros nc. induction qs as [|q qs IH]; intros p HS HC; simpl; [eauto|].
  destruct (dispatch_safe nc (q_init q) (q_oom q) (q_flags q) (q_choice q) p HS HC) as (r & p1 & E & S1 & C1).
  destruct (serve_defined q p) as [[r1 p1'] ES]; [eauto|]. rewrite ES.
  assert (p1' = p1).
  { apply serve_dispatch in ES. destruct ES as (r0 & E0 & _). rewrite E in E0. inversion E0; auto. }
  subst p1'. destruct (IH p1 S1 C1) as (rs & p2 & EH & S2 & C2). rewrite EH. eauto.
Qed.

(** *** Fatal answers over histories *)
Definition stuckH (p : dpam W) : Prop :=
  dp_fchoice p <> NOT_STACKED -> chain_mode (dp_fchoice p) = PLEASE_FREEZE ->
  forall h, stack_for p (dp_fchoice p) = Some h -> stuckQ W h (dp_former p) (dp_st p).

Definition levels_fine (p : dpam W) : Prop :=
  forall choice h, stack_for p choice = Some h ->
    levels_ok 0 false h /\ forall x, In x h -> is_call x = false -> no_reset x.

Lemma dispatch_stuck : forall init_rv oom flags choice p r p', levels_fine p -> stuckH p -> credH p ->
  dispatch call init_rv oom flags choice p = Ok (r, p') ->
  levels_fine p' /\ stuckH p' /\ (r = PAM_SUCCESS -> chain_mode choice = PLEASE_FREEZE ->
    forall h, stack_for p' choice = Some h -> no_reset_used h (trace (dp_st p')) -> ~ doomed h (trace (dp_st p'))).
Proof.
  intros init_rv oom flags choice p r p' HL HS HC H.
  destruct (dispatch_cases init_rv oom flags choice p) as [(r0 & E & HN & HX)|(E1 & E2 & E3 & h & E4 & E)]; rewrite E in H.
  { inversion H; subst. split; [exact HL|split; [exact HS|congruence]]. }
  assert (HCP : credH p' ) by (eapply dispatch_cred in HC; [|rewrite E; exact H]; tauto).
  cbv zeta in H. set (rsm := negb (dp_fchoice p =? NOT_STACKED)) in *.
  set (s := if rsm then dp_st p else mkW (ww (dp_st p)) (cache (dp_st p)) [] []) in *.
  destruct (HL _ _ E4) as [L1 L2].
  assert (HW : chain_mode choice = PLEASE_FREEZE ->
     match dispatch_aux call oom flags (chain_mode choice) h (if rsm then Some (dp_former p) else None) s with
     | AFin z s' => z = PAM_SUCCESS -> no_reset_used h (trace s') -> ~ doomed h (trace s')
     | AInc f s' => stuckQ W h f s'
     | AUB => True
     | AFuel => False
     end).
  { intro CM. rewrite CM. apply stuck_walk; auto.
    - intros f Ef. subst s. subst rsm. destruct (Z.eqb_spec (dp_fchoice p) NOT_STACKED) as [E5|E5]; simpl in *; [discriminate|].
      inversion Ef; subst. destruct E3 as [E3|E3]; [congruence|]. apply HS; auto; rewrite E3; auto.
    - subst s. destruct rsm; [discriminate|reflexivity]. }
  destruct (dispatch_aux call oom flags (chain_mode choice) h (if rsm then Some (dp_former p) else None) s) as [z s'|f s'| |] eqn:EA; try discriminate.
  - inversion H; subst. split; [exact HL|]. split.
    + intro Q. exfalso. simpl in Q. destruct (Z.eqb_spec r 31) as [->|NE]; [|congruence].
      pose proof (cred_walk W call h (chain_mode choice) oom flags (if rsm then Some (dp_former p) else None) s) as HCW.
      rewrite EA in HCW. destruct HCW as [HCW _]; [|congruence].
      intros f Ef. subst s. subst rsm. destruct (Z.eqb_spec (dp_fchoice p) NOT_STACKED) as [E5|E5]; simpl in *; [discriminate|].
      inversion Ef; subst. destruct (HC E5) as (h2 & Hh2 & _ & HQ2).
      destruct E3 as [E3|E3]; [congruence|]. rewrite E3 in *. rewrite E4 in Hh2. inversion Hh2; subst. auto.
    + intros -> CM h' Eh'. rewrite stack_for_eq in Eh'. rewrite E4 in Eh'. inversion Eh'; subst. apply HW; auto.
  - inversion H; subst. split; [exact HL|]. split; [|discriminate].
    intros Q CM h' Eh'. simpl in *. rewrite stack_for_eq, E4 in Eh'. inversion Eh'; subst. apply HW; auto.
Qed.

Lemma history_stuck : forall qs p rs p', levels_fine p -> stuckH p -> credH p -> history qs p = Ok (rs, p') ->
  levels_fine p' /\ stuckH p' /\ credH p'.
Proof.
  induction qs as [|q qs IH]; intros p rs p' HL HS HC H; simpl in H; [inversion H; subst; auto|].
  destruct (serve q p) as [[r p1]| |] eqn:ES; try discriminate.
  destruct (history qs p1) as [[rs1 p2]| |] eqn:EH; try discriminate. inversion H; subst.
  apply serve_dispatch in ES. destruct ES as (r0 & ED & _).
  pose proof (dispatch_stuck _ _ _ _ _ _ _ HL HS HC ED) as (A & B & _).
  pose proof (dispatch_cred _ _ _ _ _ _ _ HC ED) as (D & _).
  eapply IH; [| | |exact EH]; auto.
Qed.
End Hist.
