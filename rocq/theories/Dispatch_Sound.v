(** The recorded trace only contains real module calls; answers outside the range of return codes. *)
From Coq Require Import List Arith ZArith Lia Bool.
From Verif Require Import Base Dispatch_Model Dispatch_Spec Dispatch_Proofs Dispatch_Resume Dispatch_Credit Dispatch_Sticky Dispatch_History Dispatch_Trees.
Import ListNotations.
Local Open Scope Z_scope.

Section Sound.
Variable W : Type.
Variable call : handler -> Z -> W -> W * Z.

(** Position [d] of the stack holds a line whose function was run in some world with this answer. *)
Definition real_call (full : list handler) (d : nat) (r : Z) : Prop :=
  exists h flags w, nth_error full d = Some h /\ is_call h = true /\ snd (call h flags w) = r.

Definition sound (full : list handler) (tr : list (nat * Z)) : Prop :=
  forall d r, In (d, r) tr -> real_call full d r.

Section One.
Variable full : list handler.
Variable uc : frozen.
Definition soundP (prev depth : nat) (i : imp) (st : Z) (subs : subst) (s : wst W) : Prop := sound full (trace s).
Definition soundQ (f : former) (s : wst W) : Prop := sound full (trace s) /\ (f_depth f <= length full)%nat.

Lemma attempt_sound : forall flags depth h t (s : wst W) r s1,
  skipn depth full = h :: t -> sound full (trace s) ->
  attempt call flags depth h s = Some (r, s1) -> sound full (trace s1).
Proof.
  intros flags depth h t s r s1 E HS EA.
  assert (HN : nth_error full depth = Some h) by (eapply nth_error_skipn; eauto).
  destruct (attempt_traces _ _ _ _ _ _ _ _ EA) as [[-> _]|[-> HC]]; auto.
  intros d r0 [H|H]; auto. inversion H; subst.
  exists h, flags, (ww s). repeat split; auto.
  unfold attempt, is_call in *. destruct (h_type h); try discriminate;
    destruct (h_func h); try discriminate; destruct (call h flags (ww s)); inversion EA; subst; auto.
Qed.

Lemma perform_trace : forall lvl depth t i st subs r c a (s : wst W) t' d' i' st' subs' s',
  perform uc lvl depth t i st subs r c a s = StNext t' d' i' st' subs' s' -> trace s' = trace s.
Proof.
  intros lvl depth t i st subs r c a s t' d' i' st' subs' s' H.
  assert (GT : forall b : bool, trace (if b then grant_at depth s else s) = trace s) by (destruct b; reflexivity).
  unfold perform in H.
  destruct (a =? ACT_RESET). { destruct (nth_error subs lvl) as [[[? ?]|]|]; inversion H; subst; auto. }
  destruct ((a =? ACT_OK) || (a =? ACT_DONE)).
  { destruct (ok_verdict i st r c) as [i1 st1].
    destruct (imp_eqb i1 IPos && (a =? ACT_DONE)).
    - destruct (skip_rest lvl t (S depth)). inversion H; subst; auto.
    - inversion H; subst; auto. }
  destruct ((a =? ACT_BAD) || (a =? ACT_DIE)).
  { destruct (bad_verdict i st r) as [i1 st1]. destruct (a =? ACT_DIE).
    - destruct (skip_rest lvl t (S depth)). inversion H; subst; auto.
    - inversion H; subst; auto. }
  destruct (a =? ACT_IGNORE). { inversion H; subst; auto. }
  destruct (0 <? a); [|inversion H; subst; auto].
  destruct (match uc with PLEASE_FREEZE => (i, st) | _ => ok_verdict i st r c end).
  destruct (do_jump lvl false a t (S depth)) as [[? ?] rr].
  destruct (rr =? 0); inversion H; subst; destruct uc; auto.
Qed.

Lemma sound_next : forall flags prev depth h t i st subs (s : wst W) t' d' i' st' subs' s',
  skipn depth full = h :: t -> soundP prev depth i st subs s ->
  step call flags uc 0 prev depth h t i st subs s = StNext t' d' i' st' subs' s' ->
  soundP (h_level h) d' i' st' subs' s'.
Proof.
  intros flags prev depth h t i st subs s t' d' i' st' subs' s' E HP H.
  unfold soundP in *.
  rewrite step_eq in H. destruct (open_subs prev h i st subs) as [subs1|]; [|discriminate].
  destruct (attempt call flags depth h s) as [[r s1]|] eqn:EA; [|inversion H; subst; auto].
  destruct (Z.eqb_spec r PAM_INCOMPLETE) as [|NI]; [discriminate|]. unfold after in H.
  destruct (freeze uc h r s1) as [[c s2]| |] eqn:EF; try discriminate.
  destruct (freeze_trace _ _ _ _ _ _ _ EF) as (F1 & _).
  destruct (select h r c) as [[r' a]| |]; try discriminate.
  apply perform_trace in H. rewrite H, F1. eapply attempt_sound; eauto.
Qed.

Lemma sound_out : forall flags prev depth h t i st subs (s : wst W) o,
  skipn depth full = h :: t -> soundP prev depth i st subs s ->
  step call flags uc 0 prev depth h t i st subs s = StOut o -> out_inv W soundQ True o.
Proof.
  intros flags prev depth h t i st subs s o E HP H.
  apply step_out in H. destruct H as [->|(subs1 & s1 & -> & O1 & O2)]; [exact I|].
  split; simpl; [eapply attempt_sound; eauto|].
  destruct (Nat.le_gt_cases depth (length full)); auto. rewrite skipn_all2 in E by lia. discriminate.
Qed.

Lemma sound_walk : forall oom flags resumed (s : wst W),
  (forall f, resumed = Some f -> soundQ f s) -> (resumed = None -> trace s = []) ->
  match dispatch_aux call oom flags uc full resumed s with
  | AFin z s' => full = [] \/ sound full (trace s')
  | AInc f s' => soundQ f s'
  | AUB => True
  | AFuel => False
  end.
Proof.
  intros oom flags resumed s HR HTR.
  assert (FIN : forall z s', end_inv W full soundP soundQ True (AFin z s') -> sound full (trace s')).
  { intros z s' (p & d & i & st & subs & H1 & _). exact H1. }
  destruct full as [|h0 t0] eqn:EFull; [simpl; auto|]. rewrite <- EFull in *.
  assert (HNE : full <> []) by (rewrite EFull; discriminate).
  destruct resumed as [f|].
  - specialize (HR f eq_refl).
    pose proof (resumed_inv W call full uc soundP soundQ True sound_next sound_out
                  (fun f s H => match H with conj A _ => A end) oom flags f s HNE HR (proj2 HR)) as H.
    destruct (dispatch_aux call oom flags uc full (Some f) s); simpl in H; auto.
    right. eapply FIN. exact H.
  - assert (HP : soundP 0 0 IUndef PAM_PERM_DENIED fresh_subs s).
    { unfold soundP. rewrite HTR by auto. intros ? ? []. }
    pose proof (fresh_inv W call full uc soundP soundQ True sound_next sound_out
                  (fun f s H => match H with conj A _ => A end) oom flags s HNE HP) as H.
    destruct (dispatch_aux call oom flags uc full None s); simpl in H; auto.
    destruct H as [(_ & _ & ->)|H]; right; [rewrite HTR by auto; intros ? ? []|]. eapply FIN. exact H.
Qed.
End One.

Definition soundH (p : dpam W) : Prop :=
  dp_fchoice p <> NOT_STACKED -> forall h, stack_for p (dp_fchoice p) = Some h -> soundQ h (dp_former p) (dp_st p).

Lemma dispatch_sound : forall init_rv oom flags choice p r p', soundH p -> credH W p ->
  dispatch call init_rv oom flags choice p = Ok (r, p') ->
  soundH p' /\ (r = PAM_SUCCESS -> forall h, stack_for p' choice = Some h -> sound h (trace (dp_st p'))).
Proof.
  intros init_rv oom flags choice p r p' HS HC H.
  destruct (dispatch_cases W call init_rv oom flags choice p) as [(r0 & E & HN & HX)|(E1 & E2 & E3 & h & E4 & E)]; rewrite E in H.
  { inversion H; subst. split; [exact HS|congruence]. }
  cbv zeta in H. set (rsm := negb (dp_fchoice p =? NOT_STACKED)) in *.
  set (s := if rsm then dp_st p else mkW (ww (dp_st p)) (cache (dp_st p)) [] []) in *.
  assert (HW := sound_walk h (chain_mode choice) oom flags (if rsm then Some (dp_former p) else None) s).
  assert (H1 : forall f, (if rsm then Some (dp_former p) else None) = Some f -> soundQ h f s).
  { intros f Ef. subst s. subst rsm. destruct (Z.eqb_spec (dp_fchoice p) NOT_STACKED) as [E5|E5]; simpl in *; [discriminate|].
    inversion Ef; subst. destruct E3 as [E3|E3]; [congruence|]. apply HS; auto; rewrite E3; auto. }
  assert (H2 : (if rsm then Some (dp_former p) else None) = None -> trace s = []).
  { subst s. destruct rsm; [discriminate|reflexivity]. }
  specialize (HW H1 H2).
  destruct (dispatch_aux call oom flags (chain_mode choice) h (if rsm then Some (dp_former p) else None) s) as [z s'|f s'| |] eqn:EA; try discriminate.
  - inversion H; subst. split.
    + intro Q. exfalso. simpl in Q. destruct (Z.eqb_spec r 31) as [->|NE]; [|congruence].
      assert (HCW := cred_walk W call h (chain_mode choice) oom flags (if rsm then Some (dp_former p) else None) s).
      rewrite EA in HCW. destruct HCW as [HCW _]; [|congruence].
      intros f Ef. subst s. subst rsm. destruct (Z.eqb_spec (dp_fchoice p) NOT_STACKED) as [E5|E5]; simpl in *; [discriminate|].
      inversion Ef; subst. destruct (HC E5) as (h2 & Hh2 & _ & HQ2).
      destruct E3 as [E3|E3]; [congruence|]. rewrite E3 in *. rewrite E4 in Hh2. inversion Hh2; subst. auto.
    + intros -> h' Eh'. rewrite stack_for_eq, E4 in Eh'. inversion Eh'; subst. simpl.
      destruct HW as [->|HW]; auto. simpl in EA. inversion EA.
  - inversion H; subst. split; [|discriminate].
    intros Q h' Eh'. simpl in *. rewrite stack_for_eq, E4 in Eh'. inversion Eh'; subst. apply HW; auto.
Qed.

Lemma history_sound : forall qs p rs p', soundH p -> credH W p -> history W call qs p = Ok (rs, p') -> soundH p' /\ credH W p'.
Proof.
  induction qs as [|q qs IH]; intros p rs p' HS HC H; simpl in H; [inversion H; subst; auto|].
  destruct (serve W call q p) as [[r p1]| |] eqn:ES; try discriminate.
  destruct (history W call qs p1) as [[rs1 p2]| |] eqn:EH; try discriminate. inversion H; subst.
  apply serve_dispatch in ES. destruct ES as (r0 & ED & _).
  destruct (dispatch_sound _ _ _ _ _ _ _ HS HC ED) as (A & _).
  destruct (dispatch_cred _ _ _ _ _ _ _ _ _ HC ED) as (D & _).
  eapply IH; [| |exact EH]; auto.
Qed.

Lemma idle_inv : forall p, idle W p -> credH W p /\ stuckH W p /\ soundH p.
Proof. intros p [_ H]. split; [|split]; intro Q; congruence. Qed.

End Sound.

(** ** Answers outside the range of return codes *)
Section Odd.
Variable W : Type.
Variable call : handler -> Z -> W -> W * Z.
Variable flags : Z.

Definition legal (r : Z) : bool := (0 <=? r) && (r <? 32).
(** The same modules, answering PAM_PERM_DENIED instead of something that is no return code. *)
Definition tamed (h : handler) (fl : Z) (w : W) : W * Z :=
  let (w', r) := call h fl w in (w', if legal r then r else PAM_PERM_DENIED).

Definition bad_on_denied (h : handler) : Prop := nth 6 (h_actions h) 0 = ACT_BAD.

Inductive all_lines (P : handler -> Prop) : item -> Prop :=
| al_mod : forall h, P h -> all_lines P (Mod h)
| al_sub : forall m body, Forall (all_lines P) body -> all_lines P (Sub m body).

(** Same request up to the recorded return values. *)
Definition ask_like (a b : ask W) : Prop :=
  match a, b with
  | Continue v w _, Continue v' w' _ => v = v' /\ w = w'
  | Jump n v w _, Jump n' v' w' _ => n = n' /\ v = v' /\ w = w'
  | Leave v w _, Leave v' w' _ => v = v' /\ w = w'
  | Restore w _, Restore w' _ => w = w'
  | Suspend w _, Suspend w' _ => w = w'
  | _, _ => False
  end.
Definition sout_like (a b : sout W) : Prop :=
  match a, b with
  | SDone v w _, SDone v' w' _ => v = v' /\ w = w'
  | SSuspended w _, SSuspended w' _ => w = w'
  | _, _ => False
  end.

Lemma line_tamed : forall h v w c c', bad_on_denied h ->
  ask_like (module_line call flags false h v w c) (module_line tamed flags false h v w c').
Proof.
  intros h v w c c' HB. unfold module_line.
  assert (E : result tamed flags h w = let (w', r) := result call flags h w in (w', if legal r then r else 6)).
  { unfold result, tamed. destruct (h_type h); auto; destruct (h_func h); auto. }
  rewrite E. destruct (result call flags h w) as [w' r].
  unfold legal. destruct (Z.leb_spec 0 r), (Z.ltb_spec r 32); simpl andb; cbv iota.
  - destruct (r =? 31); simpl; auto.
    replace (r <? 0) with false by (symmetry; apply Z.ltb_ge; lia).
    replace (31 <? r) with false by (symmetry; apply Z.ltb_ge; lia). simpl orb. cbv iota.
    generalize (nth (Z.to_nat r) (h_actions h) 0). intro a.
    destruct a as [|p|p]; simpl; auto.
    destruct p as [[[p|p|]|[p|p|]|]|[[p|p|]|[p|p|]|]|]; simpl; auto;
      try (destruct (is_good (if (r =? 25) && negb (r =? r) then v else count_ok v r)); simpl; auto).
  - replace (r =? 31) with false by (symmetry; apply Z.eqb_neq; lia).
    change (6 =? 31) with false. cbv iota.
    replace (31 <? r) with true by (symmetry; apply Z.ltb_lt; lia). rewrite orb_true_r.
    change ((6 <? 0) || (31 <? 6)) with false. change (Z.to_nat 6) with 6%nat. simpl orb. cbv iota. rewrite HB. simpl. auto.
  - replace (r =? 31) with false by (symmetry; apply Z.eqb_neq; lia).
    change (6 =? 31) with false. cbv iota.
    replace (r <? 0) with true by (symmetry; apply Z.ltb_lt; lia).
    change ((6 <? 0) || (31 <? 6)) with false. change (Z.to_nat 6) with 6%nat. simpl orb. cbv iota. rewrite HB. simpl. auto.
  - lia.
Qed.

Lemma walk_tamed : forall l, Forall (fun x => forall v w c c',
     ask_like (run_item call flags false x v w c) (run_item tamed flags false x v w c')) l ->
  forall entry skip v w c c',
  sout_like (walk (run_item call flags false) entry skip l v w c)
            (walk (run_item tamed flags false) entry skip l v w c').
Proof.
  induction 1 as [|x l Hx Hl IH]; intros entry skip v w c c'; cbn [walk].
  - simpl. auto.
  - destruct (0 <? skip); [apply IH|].
    specialize (Hx v w c c').
    destruct (run_item call flags false x v w c), (run_item tamed flags false x v w c'); simpl in Hx; try contradiction.
    + destruct Hx as [-> ->]. apply IH.
    + destruct Hx as (-> & -> & ->). apply IH.
    + destruct Hx as [-> ->]. simpl. auto.
    + subst. apply IH.
    + subst. simpl. auto.
Qed.

Lemma item_tamed : forall x, all_lines bad_on_denied x -> forall v w c c',
  ask_like (run_item call flags false x v w c) (run_item tamed flags false x v w c').
Proof.
  intro x. induction x as [h|m body IH] using item_ind'; intros HA v w c c'; inversion HA as [? HB|? ? HB]; subst.
  - apply line_tamed; auto.
  - cbn [run_item].
    assert (H : Forall (fun x => forall v w c c',
       ask_like (run_item call flags false x v w c) (run_item tamed flags false x v w c')) body).
    { rewrite Forall_forall in *. intros y Hy. apply IH; auto. }
    pose proof (walk_tamed body H v 0 v w c c') as HW.
    destruct (walk (run_item call flags false) v 0 body v w c), (walk (run_item tamed flags false) v 0 body v w c');
      simpl in HW; try contradiction; simpl; auto.
Qed.

Lemma stack_tamed : forall l, Forall (all_lines bad_on_denied) l -> forall w c c',
  sout_like (run_stack call flags false l w c) (run_stack tamed flags false l w c').
Proof.
  intros l H w c c'. unfold run_stack. apply walk_tamed.
  rewrite Forall_forall in *. intros y Hy. intros. apply item_tamed; auto.
Qed.

Lemma aux_tamed : forall nc l (s : wst W), Forall (placed nc 0) l -> length (cache s) = nc -> Forall (all_lines bad_on_denied) l ->
  match dispatch_aux call false flags PLEASE_FREEZE (flat l) None s,
        dispatch_aux tamed false flags PLEASE_FREEZE (flat l) None s with
  | AFin r s1, AFin r' s2 => r = r' /\ ww s1 = ww s2
  | AInc _ s1, AInc _ s2 => ww s1 = ww s2
  | _, _ => False
  end.
Proof.
  intros nc l s HP HC HA.
  pose proof (fresh_sim W call flags PLEASE_FREEZE nc l s ltac:(discriminate) HP HC) as H1.
  pose proof (fresh_sim W tamed flags PLEASE_FREEZE nc l s ltac:(discriminate) HP HC) as H2.
  pose proof (stack_tamed l HA (ww s) (cache s) (cache s)) as H3. simpl fz in *.
  unfold dispatch_aux. destruct (flat l) as [|h t] eqn:EF; [auto|]. rewrite <- EF in *.
  unfold run in H1, H2.
  destruct (run_stack call flags false l (ww s) (cache s)), (run_stack tamed flags false l (ww s) (cache s)); simpl in H3; try contradiction.
  - destruct H1 as (s1 & -> & E1 & _). destruct H2 as (s2 & -> & E2 & _). destruct H3; split; congruence.
  - destruct H1 as (f1 & s1 & -> & E1 & _). destruct H2 as (f2 & s2 & -> & E2 & _). congruence.
Qed.
End Odd.
