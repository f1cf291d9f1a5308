(** Success needs a module that succeeded; failures are sticky; status range. *)
From Coq Require Import List Arith ZArith Lia Bool.
From Verif Require Import Base Dispatch_Model Dispatch_Spec Dispatch_Proofs Dispatch_Resume.
Import ListNotations.
Local Open Scope Z_scope.

(** The control of [h] lets a PAM_SUCCESS count: for a plain run the action for PAM_SUCCESS is
    ok or done; for a frozen chain the action selected by some recorded value is ok, done or a
    jump. *)
Definition counts (uc : frozen) (h : handler) : Prop :=
  exists key a, nth_error (h_actions h) key = Some a /\
    (a = ACT_OK \/ a = ACT_DONE \/ (uc <> PLEASE_FREEZE /\ 0 < a)) /\
    (uc = PLEASE_FREEZE -> key = 0%nat).

(** Some module function was called at position [d] of the stack, returned PAM_SUCCESS, and its
    control lets that count. *)
Definition credited (uc : frozen) (full : list handler) (tr : list (nat * Z)) : Prop :=
  exists d h, In (d, PAM_SUCCESS) tr /\ nth_error full d = Some h /\ is_call h = true /\ counts uc h.

Section C.
Variable W : Type.
Variable call : handler -> Z -> W -> W * Z.

Lemma credited_mono : forall uc full tr tr', incl tr tr' -> credited uc full tr -> credited uc full tr'.
Proof. intros uc full tr tr' H (d & h & H1 & H2). exists d, h. split; auto. Qed.

Definition good_state (uc : frozen) (full : list handler) (i : imp) (st : Z) (tr : list (nat * Z)) : Prop :=
  i = IPos -> st = PAM_SUCCESS -> credited uc full tr.
Definition good_subs (uc : frozen) (full : list handler) (subs : subst) (tr : list (nat * Z)) : Prop :=
  forall j i st, nth_error subs j = Some (Some (i, st)) -> good_state uc full i st tr.

Lemma good_mono : forall uc full i st tr tr', incl tr tr' -> good_state uc full i st tr -> good_state uc full i st tr'.
Proof. intros uc full i st tr tr' H G A B. eapply credited_mono; eauto. Qed.
Lemma good_subs_mono : forall uc full subs tr tr', incl tr tr' -> good_subs uc full subs tr -> good_subs uc full subs tr'.
Proof. intros uc full subs tr tr' H G j i st E. eapply good_mono; eauto. Qed.

Lemma attempt_trace : forall flags depth h (s : wst W) r s1,
  attempt call flags depth h s = Some (r, s1) ->
  incl (trace s) (trace s1) /\ cache s1 = cache s /\ grant s1 = grant s /\
  (r = PAM_SUCCESS -> In (depth, r) (trace s1) /\ is_call h = true).
Proof.
  intros flags depth h s r s1 H. unfold attempt, is_call in *.
  destruct (h_type h); try discriminate.
  - destruct (h_func h).
    + destruct (call h flags (ww s)) as [w r0]. inversion H; subst; simpl. repeat split; auto using incl_tl, incl_refl.
    + inversion H; subst. repeat split; auto using incl_refl; discriminate.
  - inversion H; subst. repeat split; auto using incl_refl; discriminate.
  - destruct (h_func h).
    + destruct (call h flags (ww s)) as [w r0]. inversion H; subst; simpl. repeat split; auto using incl_tl, incl_refl.
    + inversion H; subst. repeat split; auto using incl_refl; discriminate.
Qed.

Lemma freeze_trace : forall uc h r (s : wst W) c s2,
  freeze uc h r s = Ok (c, s2) -> trace s2 = trace s /\ ww s2 = ww s /\ grant s2 = grant s /\
  (uc = PLEASE_FREEZE -> c = r) /\ length (cache s2) = length (cache s).
Proof.
  intros uc h r s c s2 H. unfold freeze in H. destruct uc.
  - destruct (upd (cache s) (h_cell h) r) eqn:E; inversion H; subst; simpl.
    repeat split; auto. eapply upd_length; eauto.
  - destruct (nth_error (cache s) (h_cellp h)) as [k|]; try discriminate.
    destruct (k =? -1); inversion H; subst; repeat split; auto; discriminate.
  - destruct (nth_error (cache s) (h_cellp h)) as [k|]; try discriminate.
    destruct (k =? -1); inversion H; subst; repeat split; auto; discriminate.
Qed.

Lemma select_cases : forall h r c r' a, select h r c = Ok (r', a) ->
  (r' = PAM_PERM_DENIED /\ a = ACT_BAD) \/
  (r' = r /\ 0 <= c < 32 /\ nth_error (h_actions h) (Z.to_nat c) = Some a).
Proof.
  intros h r c r' a H. unfold select in H.
  destruct ((c <? 0) || (32 <=? c)) eqn:E.
  - inversion H; auto.
  - apply orb_false_iff in E; destruct E as [E1 E2]. apply Z.ltb_ge in E1. apply Z.leb_gt in E2.
    destruct (nth_error (h_actions h) (Z.to_nat c)) eqn:EN; inversion H; subst. right; auto.
Qed.

Lemma good_ok : forall uc full i st r c tr,
  good_state uc full i st tr -> (r = PAM_SUCCESS -> credited uc full tr) ->
  good_state uc full (fst (ok_verdict i st r c)) (snd (ok_verdict i st r c)) tr.
Proof.
  intros uc full i st r c tr G H. unfold ok_verdict.
  destruct (ok_applies i st && (negb (r =? PAM_IGNORE) || (c =? r))); simpl; auto.
  intros _ E. auto.
Qed.

Lemma good_neg : forall uc full st tr, good_state uc full INeg st tr.
Proof. intros uc full st tr H; discriminate. Qed.

Lemma good_bad : forall uc full i st r tr,
  good_state uc full i st tr ->
  good_state uc full (fst (bad_verdict i st r)) (snd (bad_verdict i st r)) tr.
Proof.
  intros uc full i st r tr G. unfold bad_verdict. destruct (imp_eqb i INeg); simpl; auto.
  apply good_neg.
Qed.

Lemma perform_good : forall uc full h depth t i st subs r c a (s : wst W) t' d' i' st' subs' s',
  good_state uc full i st (trace s) -> good_subs uc full subs (trace s) ->
  (r = PAM_SUCCESS -> (a = ACT_OK \/ a = ACT_DONE \/ (uc <> PLEASE_FREEZE /\ 0 < a)) -> credited uc full (trace s)) ->
  perform uc (h_level h) depth t i st subs r c a s = StNext t' d' i' st' subs' s' ->
  good_state uc full i' st' (trace s') /\ good_subs uc full subs' (trace s') /\ incl (trace s) (trace s').
Proof.
  intros uc full h depth t i st subs r c a s t' d' i' st' subs' s' G GS GC H.
  assert (GR : forall b : bool, trace (if b then grant_at depth s else s) = trace s) by (destruct b; reflexivity).
  unfold perform in H.
  destruct (a =? ACT_RESET).
  { destruct (nth_error subs (h_level h)) as [[[i1 st1]|]|] eqn:E; inversion H; subst.
    repeat split; auto using incl_refl. apply (GS _ _ _ E). }
  destruct ((a =? ACT_OK) || (a =? ACT_DONE)) eqn:EA.
  { assert (GA : a = ACT_OK \/ a = ACT_DONE \/ (uc <> PLEASE_FREEZE /\ 0 < a)).
    { apply orb_true_iff in EA. destruct EA as [EA|EA]; apply Z.eqb_eq in EA; auto. }
    pose proof (good_ok uc full i st r c (trace s) G (fun E => GC E GA)) as GO.
    destruct (ok_verdict i st r c) as [i1 st1]. simpl in GO.
    destruct (imp_eqb i1 IPos && (a =? ACT_DONE)).
    - destruct (skip_rest (h_level h) t (S depth)) as [t1 d1]. inversion H; subst. rewrite GR.
      repeat split; auto using incl_refl.
    - inversion H; subst. rewrite GR. repeat split; auto using incl_refl. }
  destruct ((a =? ACT_BAD) || (a =? ACT_DIE)).
  { pose proof (good_bad uc full i st r (trace s) G) as GB.
    destruct (bad_verdict i st r) as [i1 st1]. simpl in GB. destruct (a =? ACT_DIE).
    - destruct (skip_rest (h_level h) t (S depth)) as [t1 d1]. inversion H; subst. repeat split; auto using incl_refl.
    - inversion H; subst. repeat split; auto using incl_refl. }
  destruct (a =? ACT_IGNORE). { inversion H; subst. repeat split; auto using incl_refl. }
  destruct (0 <? a) eqn:E0.
  2:{ inversion H; subst. repeat split; auto using incl_refl, good_neg. }
  apply Z.ltb_lt in E0.
  destruct (do_jump (h_level h) false a t (S depth)) as [[t1 d1] a1].
  assert (HT : trace (match uc with PLEASE_FREEZE => s | _ => if imp_eqb i IUndef && (r =? PAM_SUCCESS) then grant_at depth s else s end) = trace s).
  { destruct uc; auto. }
  assert (HV : let q := match uc with PLEASE_FREEZE => (i, st) | _ => ok_verdict i st r c end in
               good_state uc full (fst q) (snd q) (trace s)).
  { destruct uc; auto; apply good_ok; auto; intro; apply GC; auto; right; right; split; auto; discriminate. }
  destruct (match uc with PLEASE_FREEZE => (i, st) | _ => ok_verdict i st r c end) as [i1 st1]. simpl in HV.
  destruct (a1 =? 0); inversion H; subst; rewrite HT; repeat split; auto using incl_refl, good_neg.
Qed.

Lemma step_good : forall uc full flags prev depth h t i st subs (s : wst W) t' d' i' st' subs' s',
  skipn depth full = h :: t ->
  good_state uc full i st (trace s) -> good_subs uc full subs (trace s) ->
  step call flags uc 0 prev depth h t i st subs s = StNext t' d' i' st' subs' s' ->
  good_state uc full i' st' (trace s') /\ good_subs uc full subs' (trace s') /\ skipn d' full = t'.
Proof.
  intros uc full flags prev depth h t i st subs s t' d' i' st' subs' s' HF G GS H.
  assert (HSK : skipn d' full = t') by (apply (prev_ok_step W call full _ _ _ _ _ _ _ _ _ _ _ _ _ _ _ _ HF H)).
  rewrite step_eq in H.
  destruct (open_subs prev h i st subs) as [subs1|] eqn:EO; [|discriminate].
  unfold open_subs in EO.
  assert (GS1 : good_subs uc full subs1 (trace s)).
  { destruct (prev <? h_level h)%nat; [|inversion EO; subst; auto].
    intros j i0 st0 E. destruct (Nat.eq_dec (h_level h) j) as [<-|NE].
    - rewrite (upd_same _ _ _ _ _ EO) in E. inversion E; subst; auto.
    - rewrite (upd_other _ _ _ _ _ _ EO NE) in E. eapply GS; eauto. }
  destruct (attempt call flags depth h s) as [[r s1]|] eqn:EA; [|inversion H; subst; auto].
  destruct (attempt_trace _ _ _ _ _ _ EA) as (I1 & I2 & I3 & I4).
  destruct (r =? PAM_INCOMPLETE); [discriminate|]. unfold after in H.
  destruct (freeze uc h r s1) as [[c s2]| |] eqn:EF; try discriminate.
  destruct (freeze_trace _ _ _ _ _ _ EF) as (F1 & F2 & F3 & F4 & F5).
  destruct (select h r c) as [[r' a]| |] eqn:ES; try discriminate.
  apply (perform_good uc full) in H.
  - destruct H as (H1 & H2 & H3). auto.
  - rewrite F1; eapply good_mono; eauto.
  - rewrite F1; eapply good_subs_mono; eauto.
  - intros Er GA. apply select_cases in ES.
    destruct ES as [[-> ->]|(-> & HC & HN)]; [discriminate|].
    destruct (I4 Er) as [I5 I6]; subst r.
    exists depth, h; rewrite F1; repeat split; auto.
    + eapply nth_error_skipn; eauto.
    + exists (Z.to_nat c), a; repeat split; auto. intro Q; rewrite (F4 Q); reflexivity.
Qed.

Lemma run_good : forall uc full flags n l prev depth i st subs (s s' : wst W),
  (length l <= n)%nat -> skipn depth full = l ->
  good_state uc full i st (trace s) -> good_subs uc full subs (trace s) ->
  run W call flags uc 0 prev depth l i st subs s = AFin PAM_SUCCESS s' ->
  credited uc full (trace s').
Proof.
  intros uc full flags n. induction n as [|n IH]; intros l prev depth i st subs s s' HL HF G GS H.
  - destruct l; [|simpl in HL; lia]. rewrite run_nil in H. inversion H. unfold finish in *. subst s'.
    destruct (st =? 0) eqn:E; [|simpl in *; subst; discriminate]. apply Z.eqb_eq in E.
    destruct i; simpl in *; try discriminate. apply G; auto.
  - destruct l as [|h t].
    { rewrite run_nil in H. inversion H. unfold finish in *. subst s'.
      destruct (st =? 0) eqn:E; [|simpl in *; subst; discriminate]. apply Z.eqb_eq in E.
      destruct i; simpl in *; try discriminate. apply G; auto. }
    rewrite run_cons in H.
    destruct (step call flags uc 0 prev depth h t i st subs s) as [t' d' i' st' subs' s1|o] eqn:ES.
    + pose proof (step_len _ _ _ _ _ _ _ _ _ _ _ _ _ _ _ _ _ _ _ ES) as HLen. simpl in HL.
      destruct (step_good _ _ _ _ _ _ _ _ _ _ _ _ _ _ _ _ _ HF G GS ES) as (G1 & G2 & G3).
      eapply IH; [| |exact G1|exact G2|exact H]; auto. lia.
    + subst o. exfalso. rewrite step_eq in ES.
      destruct (open_subs prev h i st subs); [|discriminate].
      destruct (attempt call flags depth h s) as [[r s1]|]; [|discriminate].
      destruct (r =? PAM_INCOMPLETE); [discriminate|].
      unfold after in ES. destruct (freeze uc h r s1) as [[c s2]| |]; try discriminate.
      destruct (select h r c) as [[r' a]| |]; try discriminate.
      unfold perform in ES.
      destruct (a =? ACT_RESET). { destruct (nth_error s0 (h_level h)) as [[[? ?]|]|]; discriminate. }
      destruct ((a =? ACT_OK) || (a =? ACT_DONE)).
      { destruct (ok_verdict i st r' c) as [i1 st1].
        destruct (imp_eqb i1 IPos && (a =? ACT_DONE)); [|discriminate].
        destruct (skip_rest (h_level h) t (S depth)); discriminate. }
      destruct ((a =? ACT_BAD) || (a =? ACT_DIE)).
      { destruct (bad_verdict i st r') as [i1 st1]. destruct (a =? ACT_DIE); [|discriminate].
        destruct (skip_rest (h_level h) t (S depth)); discriminate. }
      destruct (a =? ACT_IGNORE); [discriminate|]. destruct (0 <? a); [|discriminate].
      destruct (match uc with PLEASE_FREEZE => (i, st) | _ => ok_verdict i st r' c end).
      destruct (do_jump (h_level h) false a t (S depth)) as [[? ?] rr]; destruct (rr =? 0); discriminate.
Qed.

Lemma fresh_credit : forall oom uc full flags (s s' : wst W),
  dispatch_aux call oom flags uc full None s = AFin PAM_SUCCESS s' -> credited uc full (trace s').
Proof.
  intros oom uc full flags s s' H. unfold dispatch_aux in H.
  destruct full as [|h t]; [discriminate|]. destruct oom; [discriminate|].
  eapply (run_good uc (h :: t) flags (length (h :: t)) (h :: t) 0 0 IUndef PAM_PERM_DENIED fresh_subs s); eauto.
  - intro; discriminate.
  - intros j i st E. intro; subst. destruct j as [|j]; simpl in E; [inversion E|].
    repeat (destruct j as [|j]; simpl in E; [discriminate|]). destruct j; discriminate.
Qed.

End C.

(** Interrupted or not. *)
Lemma resumed_credit : forall W (call : handler -> Z -> W -> W * Z) oom uc full flags n (s s' : wst W),
  resume_all call flags uc full n (dispatch_aux call oom flags uc full None s) = AFin PAM_SUCCESS s' ->
  trace s = [] -> credited uc full (trace s').
Proof.
  intros W call oom uc full flags n s s' H HT.
  assert (oom = false).
  { destruct oom; auto. unfold dispatch_aux in H. destruct full; destruct n; discriminate. }
  subst oom.
  pose proof (resume_transparent W call flags uc full n s _ H) as HS.
  specialize (HS ltac:(discriminate)). unfold same_out in HS.
  destruct (dispatch_aux (patient call n) false flags uc full None s) as [x sB|f sB| |] eqn:EB; try contradiction.
  destruct HS as [<- (_ & _ & _ & HST)].
  apply fresh_credit in EB. destruct EB as (d & h & H1 & H2).
  exists d, h. split; [|exact H2].
  assert (HI : In (d, 0) (settled (trace sB))).
  { apply filter_In. split; auto. }
  rewrite <- HST in HI. apply filter_In in HI. apply HI.
Qed.
