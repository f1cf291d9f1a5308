(** Every stack the loader can produce is a tree of substacks; a module line runs at most once per call. *)
From Coq Require Import List Arith ZArith Lia Bool.
From Verif Require Import Base Dispatch_Model Dispatch_Spec Dispatch_Proofs Dispatch_Resume Dispatch_Credit Dispatch_Sticky Dispatch_History.
Import ListNotations.
Local Open Scope Z_scope.

Definition entry_ok (nc : nat) (h : handler) : Prop :=
  (h_level h < SUBSTACK_MAX)%nat /\ length (h_actions h) = 32%nat /\ (h_cell h < nc)%nat /\ (h_cellp h < nc)%nat.

Lemma to_tree : forall nc n l lvl,
  (length l <= n)%nat -> levels_ok lvl false l -> Forall (entry_ok nc) l ->
  exists tree rest, l = flat tree ++ rest /\ Forall (placed nc lvl) tree /\
    match rest with [] => True | g :: _ => (h_level g < lvl)%nat end /\
    levels_ok lvl false rest /\ (length rest <= length l)%nat.
Proof.
  intros nc n. induction n as [|n IH]; intros l lvl HL HO HE.
  - destruct l; [|simpl in HL; lia]. exists [], []. simpl. repeat split; auto; constructor.
  - destruct l as [|h t]. { exists [], []. simpl. repeat split; auto; constructor. }
    simpl in HL. inversion HE as [|? ? HEh HEt]; subst. destruct HO as [HO1 HO2].
    destruct (Nat.eq_dec (h_level h) lvl) as [EL|NL].
    2:{ exists [], (h :: t). simpl. repeat split; auto; try constructor; lia. }
    assert (MODC : h_type h <> HT_SUBSTACK -> levels_ok (h_level h) false t ->
      exists tree rest, h :: t = flat tree ++ rest /\ Forall (placed nc lvl) tree /\
        match rest with [] => True | g :: _ => (h_level g < lvl)%nat end /\
        levels_ok lvl false rest /\ (length rest <= length (h :: t))%nat).
    { intros NT HO3. rewrite EL in HO3.
      destruct (IH t lvl ltac:(lia) HO3 HEt) as (tree & rest & E & P1 & P2 & P3 & P4).
      exists (Mod h :: tree), rest. split; [rewrite E; reflexivity|]. split.
      - constructor; auto. constructor. unfold line_ok. destruct HEh as (? & ? & ? & ?). repeat split; auto.
      - repeat split; auto. simpl. lia. }
    destruct (h_type h) eqn:ET; try (apply MODC; [discriminate|exact HO2]).
    clear MODC.
    assert (HOt : levels_ok (S lvl) false t).
    { rewrite EL in HO2. destruct t as [|g q]; auto. }
    destruct (IH t (S lvl) ltac:(lia) HOt HEt) as (body & rest & E & P1 & P2 & P3 & P4).
    assert (HOr : levels_ok lvl false rest).
    { destruct rest as [|g q]; auto. destruct P3 as [_ P3]. split; [lia|auto]. }
    assert (HEr : Forall (entry_ok nc) rest).
    { subst t. apply Forall_app in HEt. tauto. }
    destruct (IH rest lvl ltac:(lia) HOr HEr) as (tree & rest2 & E2 & Q1 & Q2 & Q3 & Q4).
    exists (Sub h body :: tree), rest2. subst t rest. repeat split; auto.
    + rewrite flat_cons. cbn [flat_item]. rewrite <- !app_comm_cons. unfold flat. rewrite <- app_assoc. reflexivity.
    + constructor; auto. constructor; auto.
      destruct body as [|x body]; auto. right.
      inversion P1 as [|? ? Px Pb]; subst. destruct (placed_shape _ _ _ Px) as (g & k & E1 & E3 & _).
      rewrite flat_cons, E1 in HEt. rewrite <- !app_comm_cons in HEt. inversion HEt as [|? ? [HG _] _]; subst. lia.
    + simpl. simpl in P4. lia.
Qed.

Lemma stack_is_tree : forall nc l, stack_ok nc l ->
  exists tree, l = flat tree /\ Forall (placed nc 0) tree.
Proof.
  intros nc l [H1 H2].
  destruct (to_tree nc (length l) l 0 (le_n _) H1 H2) as (tree & rest & E & P1 & P2 & _).
  destruct rest as [|g q]; [|lia]. rewrite app_nil_r in E. eauto.
Qed.

(** ** At most one answer per line *)
Section Once.
Variable W : Type.
Variable call : handler -> Z -> W -> W * Z.
Variable full : list handler.
Variable uc : frozen.

Definition once (depth : nat) (tr : list (nat * Z)) : Prop :=
  NoDup (map fst (settled tr)) /\ forall d r, In (d, r) (settled tr) -> (d < depth)%nat.
Definition onceP (prev depth : nat) (i : imp) (st : Z) (subs : subst) (s : wst W) : Prop := once depth (trace s).
Definition onceQ (f : former) (s : wst W) : Prop := once (f_depth f) (trace s) /\ (f_depth f <= length full)%nat.

Lemma once_mono : forall d d' tr, (d <= d')%nat -> once d tr -> once d' tr.
Proof. intros d d' tr H [H1 H2]. split; auto. intros x r Hx. apply H2 in Hx. lia. Qed.

Lemma once_next : forall flags prev depth h t i st subs (s : wst W) t' d' i' st' subs' s',
  skipn depth full = h :: t -> onceP prev depth i st subs s ->
  step call flags uc 0 prev depth h t i st subs s = StNext t' d' i' st' subs' s' ->
  onceP (h_level h) d' i' st' subs' s'.
Proof.
  intros flags prev depth h t i st subs s t' d' i' st' subs' s' E HP H.
  assert (HD : (S depth <= d')%nat) by (destruct (step_moves _ _ _ _ _ _ _ _ _ _ _ _ _ _ _ _ _ _ H) as (k & ? & _); lia).
  unfold onceP in *.
  rewrite step_eq in H. destruct (open_subs prev h i st subs) as [subs1|]; [|discriminate].
  destruct (attempt call flags depth h s) as [[r s1]|] eqn:EA.
  2:{ inversion H; subst. eapply once_mono; [|exact HP]; lia. }
  destruct (Z.eqb_spec r PAM_INCOMPLETE) as [|NI]; [discriminate|]. unfold after in H.
  destruct (freeze uc h r s1) as [[c s2]| |] eqn:EF; try discriminate.
  destruct (freeze_trace _ _ _ _ _ _ _ EF) as (F1 & _).
  destruct (select h r c) as [[r' a]| |]; try discriminate.
  assert (PT : trace s' = trace s2).
  { assert (GT : forall b : bool, trace (if b then grant_at depth s2 else s2) = trace s2) by (destruct b; reflexivity).
    unfold perform in H.
    destruct (a =? ACT_RESET). { destruct (nth_error subs1 (h_level h)) as [[[? ?]|]|]; inversion H; subst; auto. }
    destruct ((a =? ACT_OK) || (a =? ACT_DONE)).
    { destruct (ok_verdict i st r' c) as [i1 st1].
      destruct (imp_eqb i1 IPos && (a =? ACT_DONE)).
      - destruct (skip_rest (h_level h) t (S depth)). inversion H; subst; auto.
      - inversion H; subst; auto. }
    destruct ((a =? ACT_BAD) || (a =? ACT_DIE)).
    { destruct (bad_verdict i st r') as [i1 st1]. destruct (a =? ACT_DIE).
      - destruct (skip_rest (h_level h) t (S depth)). inversion H; subst; auto.
      - inversion H; subst; auto. }
    destruct (a =? ACT_IGNORE). { inversion H; subst; auto. }
    destruct (0 <? a); [|inversion H; subst; auto].
    destruct (match uc with PLEASE_FREEZE => (i, st) | _ => ok_verdict i st r' c end).
    destruct (do_jump (h_level h) false a t (S depth)) as [[? ?] rr].
    destruct (rr =? 0); inversion H; subst; destruct uc; auto. }
  rewrite PT, F1.
  destruct (attempt_traces _ _ _ _ _ _ _ _ EA) as [[-> _]|[-> _]].
  - eapply once_mono; [|exact HP]. lia.
  - rewrite <- (app_nil_l (trace s)). destruct HP as [H1 H2].
    split; simpl app; rewrite settled_cons by auto; simpl.
    + constructor; auto. intro HI. apply in_map_iff in HI. destruct HI as ([d r0] & E1 & E2). simpl in E1. subst.
      apply H2 in E2. lia.
    + intros d r0 [HI|HI]; [inversion HI; subst; lia|]. apply H2 in HI. lia.
Qed.

Lemma once_out : forall flags prev depth h t i st subs (s : wst W) o,
  skipn depth full = h :: t -> onceP prev depth i st subs s ->
  step call flags uc 0 prev depth h t i st subs s = StOut o -> out_inv W onceQ True o.
Proof.
  intros flags prev depth h t i st subs s o E HP H.
  apply step_out in H. destruct H as [->|(subs1 & s1 & -> & O1 & O2)]; [exact I|].
  split; simpl.
  - destruct (attempt_traces _ _ _ _ _ _ _ _ O2) as [[-> _]|[-> _]]; [exact HP|]. unfold once. rewrite settled_inc. exact HP.
  - destruct (Nat.le_gt_cases depth (length full)); auto. rewrite skipn_all2 in E by lia. discriminate.
Qed.

Lemma once_walk : forall oom flags resumed (s : wst W),
  (forall f, resumed = Some f -> onceQ f s) -> (resumed = None -> trace s = []) ->
  match dispatch_aux call oom flags uc full resumed s with
  | AFin z s' => full = [] \/ NoDup (map fst (settled (trace s')))
  | AInc f s' => onceQ f s'
  | AUB => True
  | AFuel => False
  end.
Proof.
  intros oom flags resumed s HR HTR.
  assert (FIN : forall z s', end_inv W full onceP onceQ True (AFin z s') -> NoDup (map fst (settled (trace s')))).
  { intros z s' (p & d & i & st & subs & [H1 _] & _). exact H1. }
  destruct full as [|h0 t0] eqn:EFull; [simpl; auto|]. rewrite <- EFull in *.
  assert (HNE : full <> []) by (rewrite EFull; discriminate).
  destruct resumed as [f|].
  - specialize (HR f eq_refl).
    pose proof (resumed_inv W call full uc onceP onceQ True once_next once_out
                  (fun f s H => match H with conj A _ => A end) oom flags f s HNE HR (proj2 HR)) as H.
    destruct (dispatch_aux call oom flags uc full (Some f) s); simpl in H; auto.
    right. eapply FIN. exact H.
  - assert (HP : onceP 0 0 IUndef PAM_PERM_DENIED fresh_subs s).
    { unfold onceP. rewrite HTR by auto. split; [constructor|intros ? ? []]. }
    pose proof (fresh_inv W call full uc onceP onceQ True once_next once_out
                  (fun f s H => match H with conj A _ => A end) oom flags s HNE HP) as H.
    destruct (dispatch_aux call oom flags uc full None s); simpl in H; auto.
    destruct H as [(_ & _ & ->)|H]; right; [rewrite HTR by auto; constructor|]. eapply FIN. exact H.
Qed.
End Once.

Section OnceH.
Variable W : Type.
Variable call : handler -> Z -> W -> W * Z.

Definition onceH (p : dpam W) : Prop :=
  NoDup (map fst (settled (trace (dp_st p)))) /\
  (dp_fchoice p <> NOT_STACKED -> forall h, stack_for p (dp_fchoice p) = Some h -> onceQ W h (dp_former p) (dp_st p)).

Lemma dispatch_once : forall init_rv oom flags choice p r p', onceH p -> credH W p ->
  dispatch call init_rv oom flags choice p = Ok (r, p') -> onceH p'.
Proof.
  intros init_rv oom flags choice p r p' [HS0 HS] HC H.
  destruct (dispatch_cases W call init_rv oom flags choice p) as [(r0 & E & HN & HX)|(E1 & E2 & E3 & h & E4 & E)]; rewrite E in H.
  { inversion H; subst. split; auto. }
  assert (HD := H). rewrite <- E in HD. apply (dispatch_cred W call) in HD; [|exact HC].
  cbv zeta in H. set (rsm := negb (dp_fchoice p =? NOT_STACKED)) in *.
  set (s := if rsm then dp_st p else mkW (ww (dp_st p)) (cache (dp_st p)) [] []) in *.
  assert (HW := once_walk W call h (chain_mode choice) oom flags (if rsm then Some (dp_former p) else None) s).
  assert (H1 : forall f, (if rsm then Some (dp_former p) else None) = Some f -> onceQ W h f s).
  { intros f Ef. subst s. subst rsm. destruct (Z.eqb_spec (dp_fchoice p) NOT_STACKED) as [E5|E5]; simpl in *; [discriminate|].
    inversion Ef; subst. destruct E3 as [E3|E3]; [congruence|]. apply HS; auto; rewrite E3; auto. }
  assert (H2 : (if rsm then Some (dp_former p) else None) = None -> trace s = []).
  { subst s. destruct rsm; [discriminate|reflexivity]. }
  specialize (HW H1 H2).
  destruct (dispatch_aux call oom flags (chain_mode choice) h (if rsm then Some (dp_former p) else None) s) as [z s'|f s'| |] eqn:EA; try discriminate.
  - inversion H; subst. split.
    + simpl. destruct HW as [HW|HW]; auto. subst h. simpl in EA. inversion EA; subst.
      subst s. destruct rsm; auto. constructor.
    + intro Q. exfalso. simpl in Q. destruct (Z.eqb_spec r 31) as [->|NE]; [|congruence].
      assert (HCW := cred_walk W call h (chain_mode choice) oom flags (if rsm then Some (dp_former p) else None) s).
      rewrite EA in HCW. destruct HCW as [HCW _]; [|congruence].
      intros f Ef. subst s. subst rsm. destruct (Z.eqb_spec (dp_fchoice p) NOT_STACKED) as [E5|E5]; simpl in *; [discriminate|].
      inversion Ef; subst. destruct (HC E5) as (h2 & Hh2 & _ & HQ2).
      destruct E3 as [E3|E3]; [congruence|]. rewrite E3 in *. rewrite E4 in Hh2. inversion Hh2; subst. auto.
  - inversion H; subst. split; [apply HW|].
    intros Q h' Eh'. simpl in *. rewrite stack_for_eq, E4 in Eh'. inversion Eh'; subst. apply HW; auto.
Qed.

Lemma history_once : forall qs p rs p', onceH p -> credH W p -> history W call qs p = Ok (rs, p') -> onceH p' /\ credH W p'.
Proof.
  induction qs as [|q qs IH]; intros p rs p' HS HC H; simpl in H; [inversion H; subst; auto|].
  destruct (serve W call q p) as [[r p1]| |] eqn:ES; try discriminate.
  destruct (history W call qs p1) as [[rs1 p2]| |] eqn:EH; try discriminate. inversion H; subst.
  apply serve_dispatch in ES. destruct ES as (r0 & ED & _).
  assert (A := dispatch_once _ _ _ _ _ _ _ HS HC ED).
  destruct (dispatch_cred _ _ _ _ _ _ _ _ _ HC ED) as (D & _).
  eapply IH; [| |exact EH]; auto.
Qed.
End OnceH.

(** ** Calling the suspended function again until it completes *)
Section Insist.
Variable W : Type.
Variable call : handler -> Z -> W -> W * Z.

Fixpoint insist (n : nat) (flags choice : Z) (p : dpam W) : res (Z * dpam W) :=
  match dispatch call PAM_SUCCESS false flags choice p with
  | Ok (r, p') =>
      if r =? PAM_INCOMPLETE then
        match n with O => Ok (r, p') | S n' => insist n' flags choice p' end
      else Ok (r, p')
  | x => x
  end.

Lemma insist_resume : forall n flags choice h (p0 : dpam W) f s,
  choice <> NOT_STACKED -> stack_for p0 choice = Some h -> h <> [] -> credQ W h (chain_mode choice) f s ->
  match insist n flags choice (mkD false (dp_conf p0) (dp_other p0) choice f s) with
  | Ok (r, p') => r <> PAM_INCOMPLETE -> resume_all call flags (chain_mode choice) h (S n) (AInc f s) = AFin r (dp_st p')
  | _ => True
  end.
Proof.
  induction n as [|n IH]; intros flags choice h p0 f s HNC HS HNE HQ; cbn [insist].
  - destruct (dispatch_cases W call PAM_SUCCESS false flags choice (mkD false (dp_conf p0) (dp_other p0) choice f s))
      as [(r0 & E & HN & HX)|(E1 & E2 & E3 & h' & E4 & E)].
    { exfalso. simpl in HX. rewrite stack_for_eq, HS in HX. destruct HX as [?|[?|[?|[? ?]]]]; congruence. }
    rewrite stack_for_eq, HS in E4. inversion E4; subst h'. rewrite E. cbn [dp_fchoice dp_former dp_st dp_conf dp_other].
    replace (choice =? 0) with false by (symmetry; apply Z.eqb_neq; auto). cbv zeta. simpl negb. cbv iota.
    cbn [resume_all].
    destruct (dispatch_aux call false flags (chain_mode choice) h (Some f) s) as [z s'|f' s'| |] eqn:EA; auto.
    + destruct (z =? 31) eqn:EZ; [apply Z.eqb_eq in EZ; subst; congruence|]. intros _. reflexivity.
    + change (31 =? 31) with true. cbv iota. congruence.
  - destruct (dispatch_cases W call PAM_SUCCESS false flags choice (mkD false (dp_conf p0) (dp_other p0) choice f s))
      as [(r0 & E & HN & HX)|(E1 & E2 & E3 & h' & E4 & E)].
    { exfalso. simpl in HX. rewrite stack_for_eq, HS in HX. destruct HX as [?|[?|[?|[? ?]]]]; congruence. }
    rewrite stack_for_eq, HS in E4. inversion E4; subst h'. rewrite E. cbn [dp_fchoice dp_former dp_st dp_conf dp_other].
    replace (choice =? 0) with false by (symmetry; apply Z.eqb_neq; auto). cbv zeta. simpl negb. cbv iota.
    cbn [resume_all].
    pose proof (cred_walk W call h (chain_mode choice) false flags (Some f) s) as HCW.
    destruct (dispatch_aux call false flags (chain_mode choice) h (Some f) s) as [z s'|f' s'| |] eqn:EA; auto.
    + destruct HCW as [HCW _]; [intros f0 Ef; inversion Ef; subst; auto|].
      replace (z =? 31) with false by (symmetry; apply Z.eqb_neq; auto). intros _. reflexivity.
    + change (31 =? 31) with true. cbv iota.
      assert (HQ' : credQ W h (chain_mode choice) f' s').
      { apply HCW. intros f0 Ef; inversion Ef; subst; auto. }
      specialize (IH flags choice h p0 f' s' HNC HS HNE HQ').
      destruct (insist n flags choice (mkD false (dp_conf p0) (dp_other p0) choice f' s')) as [[r p']| |]; auto.
Qed.

Lemma insist_idle : forall n flags choice p h r p',
  idle W p -> choice <> NOT_STACKED -> stack_for p choice = Some h ->
  insist n flags choice p = Ok (r, p') -> r <> PAM_INCOMPLETE ->
  resume_all call flags (chain_mode choice) h n
    (dispatch_aux call false flags (chain_mode choice) h None (mkW (ww (dp_st p)) (cache (dp_st p)) [] [])) = AFin r (dp_st p').
Proof.
  intros n flags choice p h r p' [HI1 HI2] HNC HS H HR.
  destruct (dispatch_cases W call PAM_SUCCESS false flags choice p) as [(r0 & E & HN & HX)|(E1 & E2 & E3 & h' & E4 & E)].
  { exfalso. rewrite HS in HX. destruct HX as [?|[?|[?|[? ?]]]]; congruence. }
  rewrite HS in E4. inversion E4; subst h'. rewrite HI2 in E. simpl in E.
  pose proof (cred_walk W call h (chain_mode choice) false flags None (mkW (ww (dp_st p)) (cache (dp_st p)) [] [])) as HCW.
  assert (HCW' := HCW ltac:(discriminate)). clear HCW.
  destruct n as [|n]; cbn [insist] in H; rewrite E in H;
  destruct (dispatch_aux call false flags (chain_mode choice) h None (mkW (ww (dp_st p)) (cache (dp_st p)) [] [])) as [z s'|f' s'| |] eqn:EA; try discriminate.
  - destruct (z =? 31) eqn:EZ; inversion H; subst; [apply Z.eqb_eq in EZ; congruence|reflexivity].
  - change (31 =? 31) with true in H. cbv iota in H. congruence.
  - destruct HCW' as [HCW _]. replace (z =? 31) with false in H by (symmetry; apply Z.eqb_neq; auto). inversion H; subst. reflexivity.
  - change (31 =? 31) with true in H. cbv iota in H. destruct HCW' as [HQ HNE].
    pose proof (insist_resume n flags choice h p f' s' HNC HS HNE HQ) as HIR. rewrite H in HIR. apply HIR; auto.
Qed.
End Insist.
