(** Failures are sticky in stacks without "reset". *)
From Coq Require Import List Arith ZArith Lia Bool.
From Verif Require Import Base Dispatch_Model Dispatch_Spec Dispatch_Proofs Dispatch_Resume Dispatch_Credit.
Import ListNotations.
Local Open Scope Z_scope.

(** Number of items of the same (sub)stack that follow: entries exactly at [lvl] before the list
    goes below [lvl]. *)
Fixpoint room (lvl : nat) (l : list handler) : Z :=
  match l with
  | [] => 0
  | h :: t => if (h_level h <? lvl)%nat then 0
              else (if (h_level h =? lvl)%nat then 1 else 0) + room lvl t
  end.

(** [fatal h rest r]: the answer [r] of the module line [h], followed by [rest], must prevent success. *)
Definition fatal (h : handler) (rest : list handler) (r : Z) : Prop :=
  r < 0 \/ 32 <= r \/
  exists a, nth_error (h_actions h) (Z.to_nat r) = Some a /\
    (a = ACT_BAD \/ a = ACT_DIE \/ room (h_level h) rest < a).

Definition no_reset (h : handler) : Prop := ~ In ACT_RESET (h_actions h).

(** A fatal answer was given at some position. *)
Definition doomed (full : list handler) (tr : list (nat * Z)) : Prop :=
  exists d r h rest, In (d, r) tr /\ r <> PAM_INCOMPLETE /\ skipn d full = h :: rest /\ fatal h rest r.

Lemma room_nonneg : forall lvl l, 0 <= room lvl l.
Proof.
  induction l as [|h t IH]; simpl; [lia|]. destruct (h_level h <? lvl)%nat; [lia|].
  destruct (h_level h =? lvl)%nat; lia.
Qed.

(** A jump within the room arrives, a longer one does not. *)
Lemma do_jump_room : forall lvl l inner a d t d' a',
  0 <= a -> do_jump lvl inner a l d = (t, d', a') ->
  (inner = false -> match l with [] => True | h :: _ => (h_level h <= lvl)%nat end) ->
  (a' = 0 <-> a <= room lvl l).
Proof.
  induction l as [|n l IH]; intros inner a d t d' a' Ha H HI; simpl in H.
  - inversion H; subst. simpl. lia.
  - simpl room. destruct (inner && (lvl <? h_level n)%nat) eqn:E1.
    + apply andb_true_iff in E1; destruct E1 as [-> E1]. apply Nat.ltb_lt in E1.
      replace (h_level n <? lvl)%nat with false by (symmetry; apply Nat.ltb_ge; lia).
      replace (h_level n =? lvl)%nat with false by (symmetry; apply Nat.eqb_neq; lia).
      apply IH in H; try discriminate; lia.
    + destruct (Nat.leb_spec lvl (h_level n)) as [E2|E2].
      * replace (h_level n <? lvl)%nat with false by (symmetry; apply Nat.ltb_ge; lia).
        assert (EL : h_level n = lvl).
        { destruct inner; simpl in E1.
          - apply Nat.ltb_ge in E1. lia.
          - specialize (HI eq_refl). lia. }
        rewrite EL, Nat.eqb_refl. pose proof (room_nonneg lvl l).
        destruct (Z.ltb_spec 0 a); simpl in H.
        -- apply IH in H; try lia; try discriminate.
        -- inversion H; subst. lia.
      * replace (h_level n <? lvl)%nat with true by (symmetry; apply Nat.ltb_lt; lia).
        simpl in H. inversion H; subst. lia.
Qed.

(** In a list where an entry can be deeper than its predecessor only after a substack marker, what
    follows an ordinary entry is not deeper. *)
Fixpoint levels_ok (prev : nat) (sub : bool) (l : list handler) : Prop :=
  match l with
  | [] => True
  | h :: t => (h_level h <= if sub then S prev else prev)%nat /\
              levels_ok (h_level h) (match h_type h with HT_SUBSTACK => true | _ => false end) t
  end.

Lemma levels_ok_skipn : forall full prev sub d h t,
  levels_ok prev sub full -> skipn d full = h :: t -> h_type h <> HT_SUBSTACK ->
  match t with [] => True | g :: _ => (h_level g <= h_level h)%nat end.
Proof.
  induction full as [|a full IH]; intros prev sub d h t H E N; [rewrite skipn_nil in E; discriminate|].
  destruct d; simpl in E.
  - inversion E; subst. simpl in H. destruct H as [_ H]. destruct t as [|g q]; auto.
    simpl in H. destruct H as [H _]. destruct (h_type h); auto; congruence.
  - simpl in H. destruct H as [_ H]. eapply IH; eauto.
Qed.

Section S.
Variable W : Type.
Variable call : handler -> Z -> W -> W * Z.

Definition stuck (i : imp) (full : list handler) (tr : list (nat * Z)) : Prop := doomed full tr -> i = INeg.

Lemma perform_stuck : forall full h depth t i st subs r a (s : wst W) t' d' i' st' subs' s',
  skipn depth full = h :: t ->
  h_type h <> HT_SUBSTACK ->
  match t with [] => True | g :: _ => (h_level g <= h_level h)%nat end ->
  a <> ACT_RESET ->
  perform PLEASE_FREEZE (h_level h) depth t i st subs r r a s = StNext t' d' i' st' subs' s' ->
  (i = INeg -> i' = INeg) /\ trace s' = trace s /\
  (a = ACT_BAD \/ a = ACT_DIE \/ room (h_level h) t < a -> i' = INeg).
Proof.
  intros full h depth t i st subs r a s t' d' i' st' subs' s' HF HT HL HA H.
  assert (GR : forall b : bool, trace (if b then grant_at depth s else s) = trace s) by (destruct b; reflexivity).
  pose proof (room_nonneg (h_level h) t) as HR.
  unfold perform in H. replace (a =? ACT_RESET) with false in H by (symmetry; apply Z.eqb_neq; auto).
  destruct ((a =? ACT_OK) || (a =? ACT_DONE)) eqn:EA.
  { assert (GA : a = ACT_OK \/ a = ACT_DONE).
    { apply orb_true_iff in EA. destruct EA as [EA|EA]; apply Z.eqb_eq in EA; auto. }
    assert (HV : i = INeg -> fst (ok_verdict i st r r) = INeg).
    { intros ->. unfold ok_verdict, ok_applies. simpl. reflexivity. }
    destruct (ok_verdict i st r r) as [i1 st1]. simpl in HV.
    destruct (imp_eqb i1 IPos && (a =? ACT_DONE)).
    - destruct (skip_rest (h_level h) t (S depth)) as [t1 d1]. inversion H; subst. rewrite GR.
      repeat split; auto. lia.
    - inversion H; subst. rewrite GR. repeat split; auto. lia. }
  destruct ((a =? ACT_BAD) || (a =? ACT_DIE)) eqn:EB.
  { assert (HV : fst (bad_verdict i st r) = INeg) by (unfold bad_verdict; destruct i; reflexivity).
    destruct (bad_verdict i st r) as [i1 st1]. simpl in HV. subst i1. destruct (a =? ACT_DIE).
    - destruct (skip_rest (h_level h) t (S depth)) as [t1 d1]. inversion H; subst. auto.
    - inversion H; subst. auto. }
  apply orb_false_iff in EB. destruct EB as [EB1 EB2]. apply Z.eqb_neq in EB1, EB2.
  destruct (a =? ACT_IGNORE) eqn:E0. { apply Z.eqb_eq in E0. inversion H; subst. repeat split; auto. lia. }
  destruct (0 <? a) eqn:E1.
  2:{ inversion H; subst. repeat split; auto. }
  apply Z.ltb_lt in E1.
  destruct (do_jump (h_level h) false a t (S depth)) as [[t1 d1] a1] eqn:EJ.
  apply do_jump_room in EJ; [|lia|auto].
  destruct (a1 =? 0) eqn:EZ; inversion H; subst; repeat split; auto.
  apply Z.eqb_eq in EZ. lia.
Qed.

Lemma doomed_new : forall full depth h t r tr,
  skipn depth full = h :: t -> doomed full ((depth, r) :: tr) ->
  doomed full tr \/ (r <> PAM_INCOMPLETE /\ fatal h t r).
Proof.
  intros full depth h t r tr HF (d & r0 & h0 & rest & H1 & H2 & H3 & H4).
  destruct H1 as [H1|H1].
  - inversion H1; subst. rewrite HF in H3. inversion H3; subst. right; auto.
  - left. exists d, r0, h0, rest. auto.
Qed.

Lemma step_stuck : forall full flags prev depth h t i st subs (s : wst W) t' d' i' st' subs' s',
  levels_ok 0 false full -> Forall no_reset full ->
  skipn depth full = h :: t -> stuck i full (trace s) ->
  step call flags PLEASE_FREEZE 0 prev depth h t i st subs s = StNext t' d' i' st' subs' s' ->
  stuck i' full (trace s') /\ skipn d' full = t'.
Proof.
  intros full flags prev depth h t i st subs s t' d' i' st' subs' s' HLv HNR HF HI H.
  assert (HSK : skipn d' full = t') by (apply (prev_ok_step W call full _ _ _ _ _ _ _ _ _ _ _ _ _ _ _ _ HF H)).
  split; auto.
  rewrite step_eq in H.
  destruct (open_subs prev h i st subs) as [subs1|] eqn:EO; [|discriminate].
  destruct (attempt call flags depth h s) as [[r s1]|] eqn:EA; [|inversion H; subst; auto].
  assert (HT : h_type h <> HT_SUBSTACK).
  { intro Q. unfold attempt in EA. rewrite Q in EA. discriminate. }
  destruct (r =? PAM_INCOMPLETE) eqn:EI; [discriminate|]. apply Z.eqb_neq in EI.
  assert (HTR : trace s1 = trace s \/ trace s1 = (depth, r) :: trace s).
  { unfold attempt in EA. destruct (h_type h); try discriminate.
    - destruct (h_func h); [destruct (call h flags (ww s))|]; inversion EA; subst; auto.
    - inversion EA; subst; auto.
    - destruct (h_func h); [destruct (call h flags (ww s))|]; inversion EA; subst; auto. }
  unfold after in H.
  destruct (freeze PLEASE_FREEZE h r s1) as [[c s2]| |] eqn:EF; try discriminate.
  destruct (freeze_trace _ _ _ _ _ _ _ EF) as (F1 & F2 & F3 & F4 & F5). specialize (F4 eq_refl). subst c.
  destruct (select h r r) as [[r' a]| |] eqn:ES; try discriminate.
  assert (HNRh : no_reset h).
  { rewrite Forall_forall in HNR. apply HNR. eapply nth_error_In. eapply nth_error_skipn; eauto. }
  assert (Ha : a <> ACT_RESET).
  { apply select_cases in ES. destruct ES as [[_ ->]|(_ & _ & HN)]; [discriminate|].
    intro; subst. apply HNRh. eapply nth_error_In; eauto. }
  assert (HFat : fatal h t r -> a = ACT_BAD \/ a = ACT_DIE \/ room (h_level h) t < a).
  { apply select_cases in ES. intro FT. destruct ES as [[_ ->]|(_ & HC & HN)]; [auto|].
    destruct FT as [?|[?|(a0 & HA0 & ?)]]; try lia. rewrite HN in HA0. inversion HA0; subst. auto. }
  assert (HP : perform PLEASE_FREEZE (h_level h) depth t i st subs1 r' r a s2 = StNext t' d' i' st' subs' s') by exact H.
  (* r' differs from r only when the action is BAD, where the cached value is not used *)
  assert (HP' : (i = INeg -> i' = INeg) /\ trace s' = trace s2 /\
                (a = ACT_BAD \/ a = ACT_DIE \/ room (h_level h) t < a -> i' = INeg)).
  { apply select_cases in ES. destruct ES as [[-> ->]|(-> & HC & HN)].
    - unfold perform in HP. simpl in HP.
      assert (HV : fst (bad_verdict i st 6) = INeg) by (unfold bad_verdict; destruct i; reflexivity).
      destruct (bad_verdict i st 6) as [i1 st1]. simpl in HV. subst i1. inversion HP; subst. auto.
    - eapply perform_stuck; eauto. eapply levels_ok_skipn; eauto. }
  destruct HP' as (P1 & P2 & P3).
  unfold stuck. rewrite P2, F1. intro HD.
  destruct HTR as [HTR|HTR]; rewrite HTR in HD.
  - apply P1. apply HI. exact HD.
  - destruct (doomed_new _ _ _ _ _ _ HF HD) as [HD1|[_ HD1]]; auto.
Qed.

Lemma run_stuck : forall full flags n l prev depth i st subs (s s' : wst W),
  levels_ok 0 false full -> Forall no_reset full ->
  (length l <= n)%nat -> skipn depth full = l -> stuck i full (trace s) ->
  run W call flags PLEASE_FREEZE 0 prev depth l i st subs s = AFin PAM_SUCCESS s' ->
  ~ doomed full (trace s').
Proof.
  intros full flags n. induction n as [|n IH]; intros l prev depth i st subs s s' HLv HNR HL HF G H HD.
  - destruct l; [|simpl in HL; lia]. rewrite run_nil in H. inversion H. subst s'.
    apply G in HD. subst i. unfold finish in H1. destruct (st =? 0) eqn:E; simpl in H1; [lia|].
    apply Z.eqb_neq in E. contradiction.
  - destruct l as [|h t].
    { rewrite run_nil in H. inversion H. subst s'.
      apply G in HD. subst i. unfold finish in H1. destruct (st =? 0) eqn:E; simpl in H1; [lia|].
      apply Z.eqb_neq in E. contradiction. }
    rewrite run_cons in H.
    destruct (step call flags PLEASE_FREEZE 0 prev depth h t i st subs s) as [t' d' i' st' subs' s1|o] eqn:ES.
    + pose proof (step_len _ _ _ _ _ _ _ _ _ _ _ _ _ _ _ _ _ _ _ ES) as HLen. simpl in HL.
      destruct (step_stuck _ _ _ _ _ _ _ _ _ _ _ _ _ _ _ _ HLv HNR HF G ES) as (G1 & G3).
      eapply IH; [| | | |exact G1|exact H|exact HD]; auto. lia.
    + subst o. exfalso. rewrite step_eq in ES.
      destruct (open_subs prev h i st subs); [|discriminate].
      destruct (attempt call flags depth h s) as [[r s1]|]; [|discriminate].
      destruct (r =? PAM_INCOMPLETE); [discriminate|].
      unfold after in ES. destruct (freeze PLEASE_FREEZE h r s1) as [[c s2]| |]; try discriminate.
      destruct (select h r c) as [[r' a]| |]; try discriminate.
      unfold perform in ES.
      destruct (a =? ACT_RESET). { destruct (nth_error s0 (h_level h)) as [[[? ?]|]|]; discriminate. }
      destruct ((a =? ACT_OK) || (a =? ACT_DONE)).
      { destruct (ok_verdict i st r' c) as [i1 st1].
        destruct (imp_eqb i1 IPos && (a =? ACT_DONE)); [|discriminate].
        destruct (skip_rest (h_level h) t (S depth)); discriminate. }
      destruct ((a =? ACT_BAD) || (a =? ACT_DIE)).
      { destruct (bad_verdict i st r') as [i1 st1]. destruct (a =? ACT_DIE); [|discriminate].
        destruct (skip_rest (h_level h) t (S depth)); discriminate. }
      destruct (a =? ACT_IGNORE); [discriminate|]. destruct (0 <? a); [|discriminate].
      destruct (do_jump (h_level h) false a t (S depth)) as [[? ?] rr]; destruct (rr =? 0); discriminate.
Qed.

End S.

Lemma resumed_stuck : forall W (call : handler -> Z -> W -> W * Z) full flags n (s s' : wst W),
  levels_ok 0 false full -> Forall no_reset full -> trace s = [] ->
  resume_all call flags PLEASE_FREEZE full n (dispatch_aux call false flags PLEASE_FREEZE full None s) = AFin PAM_SUCCESS s' ->
  ~ doomed full (trace s').
Proof.
  intros W call full flags n s s' HL HN HT H HD.
  pose proof (resume_transparent W call flags PLEASE_FREEZE full n s _ H) as HS.
  specialize (HS ltac:(discriminate)). unfold same_out in HS.
  destruct (dispatch_aux (patient call n) false flags PLEASE_FREEZE full None s) as [x sB|f sB| |] eqn:EB; try contradiction.
  destruct HS as [<- (_ & _ & _ & HST)].
  unfold dispatch_aux in EB. destruct full as [|h t]; [discriminate|].
  eapply (run_stuck W (patient call n) (h :: t) flags (length (h :: t)) (h :: t) 0 0 IUndef PAM_PERM_DENIED fresh_subs s sB); auto.
  - unfold stuck. rewrite HT. intros (d & r & h0 & rest & [] & _).
  - destruct HD as (d & r & h0 & rest & H1 & H2 & H3 & H4).
    exists d, r, h0, rest. split; [|auto].
    assert (HI : In (d, r) (settled (trace s'))).
    { apply filter_In. split; auto. simpl. apply Z.eqb_neq in H2. rewrite H2. reflexivity. }
    rewrite HST in HI. apply filter_In in HI. apply HI.
Qed.
