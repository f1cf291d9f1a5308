(** The frozen chain: pam_setcred after pam_authenticate (pam_close_session after
    pam_open_session) visits the same modules. *)
From Coq Require Import List Arith ZArith Lia Bool.
From Verif Require Import Base Dispatch_Model Dispatch_Spec Dispatch_Proofs Dispatch_Resume Dispatch_Credit.
Import ListNotations.
Local Open Scope Z_scope.

(** [twin a b]: [a] is the line in the first stack, [b] the same line in the second one, which
    consults the return value recorded by [a]. *)
Definition twin (a b : handler) : Prop :=
  h_type a = h_type b /\ h_actions a = h_actions b /\ h_level a = h_level b /\
  h_cellp b = h_cell a /\ is_call a = is_call b.

Definition like (i1 i2 : imp) : Prop := (i1 = INeg <-> i2 = INeg).
Definition like_sub (a b : option (imp * Z)) : Prop :=
  match a, b with
  | None, None => True
  | Some (i1, _), Some (i2, _) => like i1 i2
  | _, _ => False
  end.
Definition like_subs (a b : subst) : Prop := Forall2 like_sub a b.

Lemma like_subs_upd : forall a b i x y a',
  like_subs a b -> like_sub x y -> upd a i x = Some a' -> exists b', upd b i y = Some b' /\ like_subs a' b'.
Proof.
  intros a b i x y a' H. revert i a'. induction H as [|u v a b H1 H2 IH]; intros i a' HX E; simpl in E; [discriminate|].
  destruct i.
  - inversion E; subst. simpl. eexists; split; eauto. constructor; auto.
  - destruct (upd a i x) as [q|] eqn:EU; [|discriminate]. inversion E; subst.
    destruct (IH i q HX EU) as (b' & E1 & E2). simpl. rewrite E1. eexists; split; eauto. constructor; auto.
Qed.

Lemma like_subs_nth : forall a b j x, like_subs a b -> nth_error a j = Some x ->
  exists y, nth_error b j = Some y /\ like_sub x y.
Proof.
  intros a b j x H. revert j. induction H as [|u v a b H1 H2 IH]; intros j E; destruct j; simpl in *; try discriminate.
  - inversion E; subst. eauto.
  - eauto.
Qed.

Lemma skip_rest_twin : forall lvl a b d t d', Forall2 twin a b ->
  skip_rest lvl a d = (t, d') -> exists t2, skip_rest lvl b d = (t2, d') /\ Forall2 twin t t2.
Proof.
  intros lvl a b d t d' H. revert d. induction H as [|x y a b H1 H2 IH]; intros d E; simpl in *.
  - inversion E; subst. exists []; auto.
  - destruct H1 as (T1 & T2 & T3 & T4 & T5). rewrite <- T3.
    destruct (lvl <=? h_level x)%nat; auto. inversion E; subst. eexists; split; eauto.
    constructor; auto. repeat split; auto.
Qed.

Lemma do_jump_twin : forall lvl a b inner k d t d' k', Forall2 twin a b ->
  do_jump lvl inner k a d = (t, d', k') ->
  exists t2, do_jump lvl inner k b d = (t2, d', k') /\ Forall2 twin t t2.
Proof.
  intros lvl a b inner k d t d' k' H. revert inner k d.
  induction H as [|x y a b H1 H2 IH]; intros inner k d E; simpl in *.
  - inversion E; subst. exists []; auto.
  - destruct H1 as (T1 & T2 & T3 & T4 & T5). rewrite <- T3.
    destruct (inner && (lvl <? h_level x)%nat); auto.
    destruct ((lvl <=? h_level x)%nat && (0 <? k)); auto.
    inversion E; subst. eexists; split; eauto. constructor; auto. repeat split; auto.
Qed.

Lemma ok_like : forall i1 st1 r1 i2 st2 r2,
  like i1 i2 -> r2 <> PAM_IGNORE ->
  let q1 := ok_verdict i1 st1 r1 r1 in let q2 := ok_verdict i2 st2 r2 r1 in
  like (fst q1) (fst q2) /\ (imp_eqb (fst q1) IPos = imp_eqb (fst q2) IPos).
Proof.
  intros i1 st1 r1 i2 st2 r2 [L1 L2] N. unfold ok_verdict. rewrite Z.eqb_refl, orb_true_r, andb_true_r.
  replace (r2 =? PAM_IGNORE) with false by (symmetry; apply Z.eqb_neq; auto). simpl negb. rewrite orb_true_l, andb_true_r.
  unfold ok_applies.
  destruct i1, i2; simpl; try (exfalso; first [discriminate (L1 eq_refl) | discriminate (L2 eq_refl)]);
    try (destruct (st1 =? 0)); try (destruct (st2 =? 0)); simpl; split; try reflexivity; split; intro; try reflexivity; try discriminate.
Qed.

Lemma bad_like : forall i1 st1 r1 i2 st2 r2,
  like (fst (bad_verdict i1 st1 r1)) (fst (bad_verdict i2 st2 r2)).
Proof. intros. unfold bad_verdict. destruct i1, i2; simpl; split; reflexivity. Qed.

Section F.
Variable W1 : Type.
Variable call1 : handler -> Z -> W1 -> W1 * Z.
Variable W2 : Type.
Variable call2 : handler -> Z -> W2 -> W2 * Z.
Hypothesis call1_not_minus1 : forall h fl w, snd (call1 h fl w) <> INVALID_RETVAL.
Hypothesis call2_not_ignore : forall h fl w, snd (call2 h fl w) <> PAM_IGNORE.
Hypothesis call2_complete : forall h fl w, snd (call2 h fl w) <> PAM_INCOMPLETE.

Lemma perform_twin : forall lvl depth t1 t2 i1 st1 i2 st2 subs1 subs2 r1 r2 c a (s1 : wst W1) (s2 : wst W2)
    t' d' i' st' subs' s',
  Forall2 twin t1 t2 -> like i1 i2 -> like_subs subs1 subs2 -> r2 <> PAM_IGNORE ->
  (r1 = c \/ a = ACT_BAD) ->
  perform PLEASE_FREEZE lvl depth t1 i1 st1 subs1 r1 c a s1 = StNext t' d' i' st' subs' s' ->
  exists t2' i2' st2' subs2' s2',
    perform MAY_BE_FROZEN lvl depth t2 i2 st2 subs2 r2 c a s2 = StNext t2' d' i2' st2' subs2' s2' /\
    Forall2 twin t' t2' /\ like i' i2' /\ like_subs subs' subs2' /\
    cache s' = cache s1 /\ cache s2' = cache s2 /\ trace s' = trace s1 /\ trace s2' = trace s2.
Proof.
  intros lvl depth t1 t2 i1 st1 i2 st2 subs1 subs2 r1 r2 c a s1 s2 t' d' i' st' subs' s' HT HL HS N HR H.
  assert (G1 : forall b : bool, cache (if b then grant_at depth s1 else s1) = cache s1 /\ trace (if b then grant_at depth s1 else s1) = trace s1)
    by (destruct b; split; reflexivity).
  assert (G2 : forall b : bool, cache (if b then grant_at depth s2 else s2) = cache s2 /\ trace (if b then grant_at depth s2 else s2) = trace s2)
    by (destruct b; split; reflexivity).
  unfold perform in *.
  destruct (a =? ACT_RESET).
  { destruct (nth_error subs1 lvl) as [[[x y]|]|] eqn:E; try discriminate.
    destruct (like_subs_nth _ _ _ _ HS E) as (z & E2 & LZ). rewrite E2.
    destruct z as [[zi zs]|]; simpl in LZ; [|contradiction]. inversion H; subst.
    do 5 eexists; split; [reflexivity|]. repeat split; auto; apply LZ. }
  destruct ((a =? ACT_OK) || (a =? ACT_DONE)) eqn:EA.
  { assert (r1 = c).
    { destruct HR as [?| ->]; auto. simpl in EA. discriminate. }
    subst c. pose proof (ok_like i1 st1 r1 i2 st2 r2 HL N) as [OK1 OK2].
    destruct (ok_verdict i1 st1 r1 r1) as [j1 k1], (ok_verdict i2 st2 r2 r1) as [j2 k2].
    simpl in OK1, OK2. rewrite <- OK2.
    destruct (imp_eqb j1 IPos && (a =? ACT_DONE)).
    - destruct (skip_rest lvl t1 (S depth)) as [u v] eqn:E.
      destruct (skip_rest_twin _ _ _ _ _ _ HT E) as (u2 & E2 & E3). rewrite E2. inversion H; subst.
      do 5 eexists; split; [reflexivity|]. repeat split; auto; try apply OK1; try apply G1; try apply G2.
    - inversion H; subst. do 5 eexists; split; [reflexivity|]. repeat split; auto; try apply OK1; try apply G1; try apply G2. }
  destruct ((a =? ACT_BAD) || (a =? ACT_DIE)).
  { pose proof (bad_like i1 st1 r1 i2 st2 r2) as BL.
    destruct (bad_verdict i1 st1 r1) as [j1 k1], (bad_verdict i2 st2 r2) as [j2 k2]. simpl in BL.
    destruct (a =? ACT_DIE).
    - destruct (skip_rest lvl t1 (S depth)) as [u v] eqn:E.
      destruct (skip_rest_twin _ _ _ _ _ _ HT E) as (u2 & E2 & E3). rewrite E2. inversion H; subst.
      do 5 eexists; split; [reflexivity|]. repeat split; auto; apply BL.
    - inversion H; subst. do 5 eexists; split; [reflexivity|]. repeat split; auto; apply BL. }
  destruct (a =? ACT_IGNORE) eqn:E0.
  { inversion H; subst. do 5 eexists; split; [reflexivity|]. repeat split; auto; apply HL. }
  destruct (0 <? a) eqn:E1.
  2:{ inversion H; subst. do 5 eexists; split; [reflexivity|]. repeat split; auto. }
  destruct (do_jump lvl false a t1 (S depth)) as [[u v] k] eqn:E.
  destruct (do_jump_twin _ _ _ _ _ _ _ _ _ HT E) as (u2 & E2 & E3). rewrite E2.
  assert (r1 = c).
  { destruct HR as [?| ->]; auto. discriminate. }
  subst c. pose proof (ok_like i1 st1 r1 i2 st2 r2 HL N) as [OK1 OK2].
  assert (LK : like i1 (fst (ok_verdict i2 st2 r2 r1))).
  { split; intro Q.
    - apply HL in Q. subst i2. unfold ok_verdict, ok_applies. reflexivity.
    - apply HL. unfold ok_verdict in Q.
      destruct (ok_applies i2 st2 && (negb (r2 =? PAM_IGNORE) || (r1 =? r2))); simpl in Q; auto; discriminate. }
  destruct (ok_verdict i2 st2 r2 r1) as [j2 k2]. simpl in LK.
  destruct (k =? 0).
  - inversion H; subst. do 5 eexists; split; [reflexivity|]. repeat split; auto; try apply LK; try apply G2.
  - inversion H; subst. do 5 eexists; split; [reflexivity|]. repeat split; auto; try apply G2.
Qed.

(** A plain run writes only the cells of the lines it has still to visit. *)
Lemma run_cells : forall flags n l prev depth i st subs (s s' : wst W1) z k,
  (length l <= n)%nat ->
  run W1 call1 flags PLEASE_FREEZE 0 prev depth l i st subs s = AFin z s' ->
  ~ In k (map h_cell l) -> nth_error (cache s') k = nth_error (cache s) k.
Proof.
  intros flags n. induction n as [|n IH]; intros l prev depth i st subs s s' z k HL H HN.
  - destruct l; [|simpl in HL; lia]. rewrite run_nil in H. inversion H; subst; auto.
  - destruct l as [|h t]; [rewrite run_nil in H; inversion H; subst; auto|].
    rewrite run_cons in H. simpl in HL, HN.
    destruct (step call1 flags PLEASE_FREEZE 0 prev depth h t i st subs s) as [t' d' i' st' subs' s1|o] eqn:ES.
    + destruct (step_moves W1 call1 _ _ _ _ _ _ _ _ _ _ _ _ _ _ _ _ ES) as (j & M1 & M2 & M3 & _).
      assert (HC : nth_error (cache s1) k = nth_error (cache s) k).
      { rewrite step_eq in ES. destruct (open_subs prev h i st subs); [|discriminate].
        destruct (attempt call1 flags depth h s) as [[r sa]|] eqn:EA; [|inversion ES; subst; auto].
        destruct (attempt_trace _ _ _ _ _ _ _ _ EA) as (_ & A2 & _ & _).
        destruct (r =? PAM_INCOMPLETE); [discriminate|]. unfold after in ES.
        destruct (freeze PLEASE_FREEZE h r sa) as [[c sb]| |] eqn:EF; try discriminate.
        destruct (select h r c) as [[r' a]| |]; try discriminate.
        assert (HP : cache s1 = cache sb).
        { clear - ES. unfold perform in ES.
          destruct (a =? ACT_RESET). { destruct (nth_error s0 (h_level h)) as [[[? ?]|]|]; inversion ES; subst; auto. }
          destruct ((a =? ACT_OK) || (a =? ACT_DONE)).
          { destruct (ok_verdict i st r' c) as [u v].
            destruct (imp_eqb u IPos && (r' =? 0)), (imp_eqb u IPos && (a =? ACT_DONE));
              try destruct (skip_rest (h_level h) t (S depth)); inversion ES; subst; auto. }
          destruct ((a =? ACT_BAD) || (a =? ACT_DIE)).
          { destruct (bad_verdict i st r') as [u v]. destruct (a =? ACT_DIE);
              try destruct (skip_rest (h_level h) t (S depth)); inversion ES; subst; auto. }
          destruct (a =? ACT_IGNORE); [inversion ES; subst; auto|].
          destruct (0 <? a); [|inversion ES; subst; auto].
          destruct (do_jump (h_level h) false a t (S depth)) as [[u v] w]. destruct (w =? 0); inversion ES; subst; auto. }
        rewrite HP. simpl in EF. destruct (upd (cache sa) (h_cell h) r) eqn:EU; inversion EF; subst. simpl.
        rewrite (upd_other _ _ _ _ k _ EU), A2; auto. }
      rewrite <- HC. subst t'.
      eapply IH; [|exact H|].
      * rewrite skipn_length; lia.
      * intro Q. apply HN. right. apply in_map_iff in Q. destruct Q as (x & Q1 & Q2).
        apply in_map_iff. exists x; split; auto.
        rewrite <- (firstn_skipn j t). apply in_or_app; auto.
    + subst o. exfalso. revert ES. rewrite step_eq.
      destruct (open_subs prev h i st subs); [|discriminate].
      destruct (attempt call1 flags depth h s) as [[r sa]|]; [|discriminate].
      destruct (r =? PAM_INCOMPLETE); [discriminate|]. unfold after.
      destruct (freeze PLEASE_FREEZE h r sa) as [[c sb]| |]; try discriminate.
      destruct (select h r c) as [[r' a]| |]; try discriminate.
      unfold perform.
      destruct (a =? ACT_RESET). { destruct (nth_error s0 (h_level h)) as [[[? ?]|]|]; discriminate. }
      destruct ((a =? ACT_OK) || (a =? ACT_DONE)).
      { destruct (ok_verdict i st r' c) as [u v]. destruct (imp_eqb u IPos && (a =? ACT_DONE));
          try destruct (skip_rest (h_level h) t (S depth)); discriminate. }
      destruct ((a =? ACT_BAD) || (a =? ACT_DIE)).
      { destruct (bad_verdict i st r') as [u v]. destruct (a =? ACT_DIE);
          try destruct (skip_rest (h_level h) t (S depth)); discriminate. }
      destruct (a =? ACT_IGNORE); [discriminate|]. destruct (0 <? a); [|discriminate].
      destruct (do_jump (h_level h) false a t (S depth)) as [[u v] w]; destruct (w =? 0); discriminate.
Qed.

Lemma attempt_twin : forall a b fl1 fl2 depth (s1 : wst W1) (s2 : wst W2),
  twin a b ->
  match attempt call1 fl1 depth a s1 with
  | None => attempt call2 fl2 depth b s2 = None
  | Some (r1, s1') =>
      exists r2 s2', attempt call2 fl2 depth b s2 = Some (r2, s2') /\
        r1 <> INVALID_RETVAL /\ r2 <> PAM_IGNORE /\ r2 <> PAM_INCOMPLETE /\
        cache s1' = cache s1 /\ cache s2' = cache s2 /\
        ((map fst (trace s1') = depth :: map fst (trace s1) /\ map fst (trace s2') = depth :: map fst (trace s2)) \/
         (trace s1' = trace s1 /\ trace s2' = trace s2))
  end.
Proof.
  intros a b fl1 fl2 depth s1 s2 (T1 & T2 & T3 & T4 & T5).
  destruct (is_call a) eqn:EC.
  - rewrite !attempt_call by congruence.
    destruct (call1 a fl1 (ww s1)) as [w1 r1] eqn:E1, (call2 b fl2 (ww s2)) as [w2 r2] eqn:E2.
    simpl. do 2 eexists; split; [reflexivity|].
    pose proof (call1_not_minus1 a fl1 (ww s1)) as X1. pose proof (call2_not_ignore b fl2 (ww s2)) as X2.
    pose proof (call2_complete b fl2 (ww s2)) as X3. rewrite E1 in X1. rewrite E2 in X2, X3. simpl in *.
    repeat split; auto.
  - rewrite !attempt_nocall by congruence. rewrite <- T1.
    destruct (h_type a); auto; do 2 eexists; (split; [reflexivity|]); repeat split; auto; discriminate.
Qed.

Lemma frozen_sim : forall fl1 fl2 nc n l1 l2,
  (length l1 <= n)%nat -> Forall2 twin l1 l2 -> NoDup (map h_cell l1) ->
  Forall (fun h => length (h_actions h) = 32%nat /\ (h_cell h < nc)%nat) l1 ->
  forall prev depth i1 st1 subs1 (s1 s1' : wst W1) z i2 st2 subs2 (s2 : wst W2),
  run W1 call1 fl1 PLEASE_FREEZE 0 prev depth l1 i1 st1 subs1 s1 = AFin z s1' ->
  like i1 i2 -> like_subs subs1 subs2 -> cache s2 = cache s1' -> length (cache s1') = nc ->
  exists z2 s2' new1 new2,
    run W2 call2 fl2 MAY_BE_FROZEN 0 prev depth l2 i2 st2 subs2 s2 = AFin z2 s2' /\
    cache s2' = cache s2 /\
    trace s1' = new1 ++ trace s1 /\ trace s2' = new2 ++ trace s2 /\ map fst new1 = map fst new2.
Proof.
  intros fl1 fl2 nc n. induction n as [|n IH]; intros l1 l2 HL HT HN HA prev depth i1 st1 subs1 s1 s1' z i2 st2 subs2 s2 H LI LS HC HNC.
  - destruct l1; [|simpl in HL; lia]. inversion HT; subst. rewrite run_nil in *. inversion H; subst.
    exists (finish i2 st2), s2, [], []. repeat split; auto.
  - destruct l1 as [|a t1].
    { inversion HT; subst. rewrite run_nil in *. inversion H; subst.
      exists (finish i2 st2), s2, [], []. repeat split; auto. }
    inversion HT as [|? b ? t2 HTW HTT]; subst. simpl in HL.
    inversion HN as [|? ? HN1 HN2]; inversion HA as [|? ? [HA1 HA2] HAT]; subst.
    rewrite run_cons in *. rewrite step_eq in *.
    destruct HTW as (T1 & T2 & T3 & T4 & T5).
    assert (HTW : twin a b) by (repeat split; auto).
    destruct (open_subs prev a i1 st1 subs1) as [sb1|] eqn:EO; [|discriminate].
    assert (EO2 : exists sb2, open_subs prev b i2 st2 subs2 = Some sb2 /\ like_subs sb1 sb2).
    { unfold open_subs in *. rewrite <- T3. destruct (prev <? h_level a)%nat.
      - eapply like_subs_upd; [exact LS| |exact EO]. simpl. exact LI.
      - inversion EO; subst; eauto. }
    destruct EO2 as (sb2 & EO2 & LS1). rewrite EO2.
    pose proof (attempt_twin a b fl1 fl2 depth s1 s2 HTW) as HAT2.
    destruct (attempt call1 fl1 depth a s1) as [[r1 sa1]|] eqn:EA1.
    2:{ rewrite HAT2. rewrite <- T3. eapply IH; eauto. lia. }
    destruct HAT2 as (r2 & sa2 & EA2 & N1 & N2 & N3 & C1 & C2 & TR). rewrite EA2.
    replace (r2 =? PAM_INCOMPLETE) with false by (symmetry; apply Z.eqb_neq; auto).
    destruct (r1 =? PAM_INCOMPLETE) eqn:EI; [discriminate|].
    (* first run: record and act *)
    destruct (after W1 PLEASE_FREEZE depth a t1 i1 st1 sb1 r1 sa1) as [t' d' i' st' subs' s'|o] eqn:EAF.
    2:{ exfalso. subst o. revert EAF. unfold after.
        destruct (freeze PLEASE_FREEZE a r1 sa1) as [[c sb]| |]; try discriminate.
        destruct (select a r1 c) as [[r' x]| |]; try discriminate.
        unfold perform.
        destruct (x =? ACT_RESET). { destruct (nth_error sb1 (h_level a)) as [[[? ?]|]|]; discriminate. }
        destruct ((x =? ACT_OK) || (x =? ACT_DONE)).
        { destruct (ok_verdict i1 st1 r' c) as [u v]. destruct (imp_eqb u IPos && (x =? ACT_DONE));
            try destruct (skip_rest (h_level a) t1 (S depth)); discriminate. }
        destruct ((x =? ACT_BAD) || (x =? ACT_DIE)).
        { destruct (bad_verdict i1 st1 r') as [u v]. destruct (x =? ACT_DIE);
            try destruct (skip_rest (h_level a) t1 (S depth)); discriminate. }
        destruct (x =? ACT_IGNORE); [discriminate|]. destruct (0 <? x); [|discriminate].
        destruct (do_jump (h_level a) false x t1 (S depth)) as [[u v] w]; destruct (w =? 0); discriminate. }
    assert (EST : step call1 fl1 PLEASE_FREEZE 0 prev depth a t1 i1 st1 subs1 s1 = StNext t' d' i' st' subs' s').
    { rewrite step_eq, EO, EA1, EI. exact EAF. }
    destruct (step_moves W1 call1 _ _ _ _ _ _ _ _ _ _ _ _ _ _ _ _ EST) as (j & M1 & M2 & M3 & _).
    unfold after in EAF.
    destruct (freeze PLEASE_FREEZE a r1 sa1) as [[c sf1]| |] eqn:EF1; try discriminate.
    assert (c = r1 /\ nth_error (cache sf1) (h_cell a) = Some r1 /\ trace sf1 = trace sa1).
    { simpl in EF1. destruct (upd (cache sa1) (h_cell a) r1) eqn:EU; inversion EF1; subst. simpl.
      repeat split; auto. eapply upd_same; eauto. }
    destruct H0 as (-> & HCell & HTr1).
    destruct (select a r1 r1) as [[rr x]| |] eqn:ES; try discriminate.
    (* the recorded value is still there at the end *)
    assert (HFin : nth_error (cache s1') (h_cell a) = Some r1).
    { assert (HCS : cache s' = cache sf1).
      { clear - EAF. unfold perform in EAF.
        destruct (x =? ACT_RESET). { destruct (nth_error sb1 (h_level a)) as [[[? ?]|]|]; inversion EAF; subst; auto. }
        destruct ((x =? ACT_OK) || (x =? ACT_DONE)).
        { destruct (ok_verdict i1 st1 rr r1) as [u v].
          destruct (imp_eqb u IPos && (rr =? 0)), (imp_eqb u IPos && (x =? ACT_DONE));
            try destruct (skip_rest (h_level a) t1 (S depth)); inversion EAF; subst; auto. }
        destruct ((x =? ACT_BAD) || (x =? ACT_DIE)).
        { destruct (bad_verdict i1 st1 rr) as [u v]. destruct (x =? ACT_DIE);
            try destruct (skip_rest (h_level a) t1 (S depth)); inversion EAF; subst; auto. }
        destruct (x =? ACT_IGNORE); [inversion EAF; subst; auto|].
        destruct (0 <? x); [|inversion EAF; subst; auto].
        destruct (do_jump (h_level a) false x t1 (S depth)) as [[u v] w]. destruct (w =? 0); inversion EAF; subst; auto. }
      rewrite <- HCell, <- HCS. eapply run_cells; [|exact H|]; [apply le_n|].
      subst t'. intro Q. apply HN1. apply in_map_iff in Q. destruct Q as (y & Q1 & Q2).
      apply in_map_iff. exists y; split; auto. rewrite <- (firstn_skipn j t1). apply in_or_app; auto. }
    (* second run *)
    assert (EF2 : freeze MAY_BE_FROZEN b r2 sa2 = Ok (r1, sa2)).
    { simpl. rewrite C2, HC, T4, HFin. replace (r1 =? -1) with false by (symmetry; apply Z.eqb_neq; auto). reflexivity. }
    unfold after. rewrite EF2.
    assert (ES2 : exists rr2, select b r2 r1 = Ok (rr2, x) /\ rr2 <> PAM_IGNORE /\ (rr = r1 \/ x = ACT_BAD)).
    { unfold select in *. rewrite <- T2. destruct ((r1 <? 0) || (32 <=? r1)).
      - inversion ES; subst. exists 6. repeat split; auto. discriminate.
      - destruct (nth_error (h_actions a) (Z.to_nat r1)); inversion ES; subst. exists r2. auto. }
    destruct ES2 as (rr2 & ES2 & NR2 & HRB). rewrite ES2. rewrite <- T3.
    destruct (perform_twin (h_level a) depth t1 t2 i1 st1 i2 st2 sb1 sb2 rr rr2 r1 x sf1 sa2 _ _ _ _ _ _
                HTT LI LS1 NR2 HRB EAF) as (t2' & i2' & st2' & subs2' & s2n & P1 & P2 & P3 & P4 & P5 & P6 & P7 & P8).
    rewrite P1.
    destruct (IH t' t2') with (prev := h_level a) (depth := d') (i1 := i') (st1 := st') (subs1 := subs') (s1 := s') (s1' := s1')
      (z := z) (i2 := i2') (st2 := st2') (subs2 := subs2') (s2 := s2n) as (z2 & s2' & new1 & new2 & R1 & R2 & R3 & R4 & R5); auto.
    + subst t'. rewrite skipn_length. lia.
    + subst t'. clear - HN2. revert t1 HN2. induction j as [|j IHj]; intros t1 HN2; [exact HN2|].
      destruct t1; [constructor|]. simpl. apply IHj. inversion HN2; auto.
    + subst t'. apply Forall_skipn; auto.
    + congruence.
    + exists z2, s2'.
      destruct TR as [[TR1 TR2]|[TR1 TR2]].
      * assert (X1 : exists e1, trace sa1 = e1 :: trace s1 /\ fst e1 = depth).
        { clear - EA1 TR1. unfold attempt in EA1. destruct (h_type a); try discriminate.
          - destruct (h_func a); [destruct (call1 a fl1 (ww s1))|]; inversion EA1; subst; simpl in *; [eauto|].
            exfalso. apply (f_equal (@length _)) in TR1. simpl in TR1. lia.
          - inversion EA1; subst. exfalso. apply (f_equal (@length _)) in TR1. simpl in TR1. lia.
          - destruct (h_func a); [destruct (call1 a fl1 (ww s1))|]; inversion EA1; subst; simpl in *; [eauto|].
            exfalso. apply (f_equal (@length _)) in TR1. simpl in TR1. lia. }
        assert (X2 : exists e2, trace sa2 = e2 :: trace s2 /\ fst e2 = depth).
        { clear - EA2 TR2. unfold attempt in EA2. destruct (h_type b); try discriminate.
          - destruct (h_func b); [destruct (call2 b fl2 (ww s2))|]; inversion EA2; subst; simpl in *; [eauto|].
            exfalso. apply (f_equal (@length _)) in TR2. simpl in TR2. lia.
          - inversion EA2; subst. exfalso. apply (f_equal (@length _)) in TR2. simpl in TR2. lia.
          - destruct (h_func b); [destruct (call2 b fl2 (ww s2))|]; inversion EA2; subst; simpl in *; [eauto|].
            exfalso. apply (f_equal (@length _)) in TR2. simpl in TR2. lia. }
        destruct X1 as (e1 & X1 & Y1), X2 as (e2 & X2 & Y2).
        exists (new1 ++ [e1]), (new2 ++ [e2]). split; [exact R1|]. split; [congruence|].
        split; [rewrite R3, P7, HTr1, X1, <- app_assoc; reflexivity|].
        split; [rewrite R4, P8, X2, <- app_assoc; reflexivity|].
        rewrite !map_app, R5. simpl. congruence.
      * exists new1, new2. split; [exact R1|]. split; [congruence|].
        split; [rewrite R3, P7, HTr1, TR1; reflexivity|].
        split; [rewrite R4, P8, TR2; reflexivity|]. exact R5.
Qed.

Lemma like_subs_refl : forall a, like_subs a a.
Proof.
  induction a as [|x a IH]; constructor; auto. destruct x as [[? ?]|]; simpl; auto. split; auto.
Qed.

Lemma frozen_same_path : forall fl1 fl2 A B (s s1 : wst W1) z w2,
  Forall2 twin A B -> NoDup (map h_cell A) ->
  Forall (fun h => length (h_actions h) = 32%nat /\ (h_cell h < length (cache s1))%nat) A ->
  trace s = [] ->
  dispatch_aux call1 false fl1 PLEASE_FREEZE A None s = AFin z s1 ->
  exists z2 s2, dispatch_aux call2 false fl2 MAY_BE_FROZEN B None (mkW w2 (cache s1) [] []) = AFin z2 s2 /\
    map fst (trace s2) = map fst (trace s1).
Proof.
  intros fl1 fl2 A B s s1 z w2 HT HN HA HTR H.
  destruct A as [|a A].
  - inversion HT; subst. simpl in *. inversion H; subst. do 2 eexists; split; [reflexivity|]. simpl. rewrite HTR. reflexivity.
  - inversion HT as [|? b ? B' HB1 HB2]; subst. unfold dispatch_aux in *.
    edestruct (frozen_sim fl1 fl2 (length (cache s1)) (length (a :: A)) (a :: A) (b :: B') (le_n _) HT HN HA 0%nat 0%nat IUndef 6 fresh_subs s s1 z
                IUndef 6 fresh_subs (mkW w2 (cache s1) [] []) H) as (z2 & s2 & n1 & n2 & R1 & R2 & R3 & R4 & R5); auto.
    + split; auto.
    + apply like_subs_refl.
    + exists z2, s2. split; [exact R1|]. rewrite R3, R4, HTR. simpl. rewrite !app_nil_r. auto.
Qed.

End F.
