(** Lemmas on the dispatch loop: fuel, and refinement of the flat walk to the tree semantics. *)
From Coq Require Import List Arith ZArith Lia Bool.
From Verif Require Import Base Dispatch_Model Dispatch_Spec.
Import ListNotations.
Local Open Scope Z_scope.

Lemma skip_rest_len : forall lvl l d t d', skip_rest lvl l d = (t, d') -> (length t <= length l)%nat.
Proof.
  induction l as [|n l IH]; simpl; intros d t d' H.
  - inversion H; simpl; lia.
  - destruct (lvl <=? h_level n)%nat.
    + apply IH in H; lia.
    + inversion H; simpl; lia.
Qed.

Lemma do_jump_len : forall lvl l inner a d t d' a',
  do_jump lvl inner a l d = (t, d', a') -> (length t <= length l)%nat.
Proof.
  induction l as [|n l IH]; simpl; intros inner a d t d' a' H.
  - inversion H; simpl; lia.
  - destruct (inner && (lvl <? h_level n)%nat).
    + apply IH in H; lia.
    + destruct ((lvl <=? h_level n)%nat && (0 <? a)).
      * apply IH in H; lia.
      * inversion H; simpl; lia.
Qed.

Section P.
Variable W : Type.
Variable call : handler -> Z -> W -> W * Z.

Lemma perform_len : forall uc lvl depth t i st subs r c a (s : wst W) t' d' i' st' subs' s',
  perform uc lvl depth t i st subs r c a s = StNext t' d' i' st' subs' s' ->
  (length t' <= length t)%nat.
Proof.
  unfold perform; intros until s'; intro H.
  destruct (a =? ACT_RESET).
  { destruct (nth_error subs lvl) as [[[? ?]|]|]; inversion H; subst; lia. }
  destruct ((a =? ACT_OK) || (a =? ACT_DONE)).
  { destruct (ok_verdict i st r c) as [i1 st1].
    destruct (imp_eqb i1 IPos && (a =? ACT_DONE)).
    - destruct (skip_rest lvl t (S depth)) as [t1 d1] eqn:E. apply skip_rest_len in E.
      inversion H; subst; lia.
    - inversion H; subst; lia. }
  destruct ((a =? ACT_BAD) || (a =? ACT_DIE)).
  { destruct (bad_verdict i st r) as [i1 st1].
    destruct (a =? ACT_DIE).
    - destruct (skip_rest lvl t (S depth)) as [t1 d1] eqn:E. apply skip_rest_len in E.
      inversion H; subst; lia.
    - inversion H; subst; lia. }
  destruct (a =? ACT_IGNORE). { inversion H; subst; lia. }
  destruct (0 <? a).
  { destruct (match uc with PLEASE_FREEZE => (i, st) | _ => ok_verdict i st r c end) as [i1 st1].
    destruct (do_jump lvl false a t (S depth)) as [[t1 d1] a1] eqn:E. apply do_jump_len in E.
    destruct (a1 =? 0); inversion H; subst; lia. }
  inversion H; subst; lia.
Qed.

Lemma step_len : forall flags uc skip prev depth h t i st subs (s : wst W) t' d' i' st' subs' s',
  step call flags uc skip prev depth h t i st subs s = StNext t' d' i' st' subs' s' ->
  (length t' <= length t)%nat.
Proof.
  unfold step; intros until s'; intro H.
  destruct (depth <? skip)%nat. { inversion H; subst; lia. }
  destruct (if (prev <? h_level h)%nat then upd subs (h_level h) (Some (i, st)) else Some subs)
    as [subs1|]; [|discriminate].
  destruct (attempt call flags depth h s) as [[r s1]|]; [|inversion H; subst; lia].
  destruct (r =? PAM_INCOMPLETE); [discriminate|].
  destruct (freeze uc h r s1) as [[c s2]| |]; try discriminate.
  destruct (select h r c) as [[r' a]| |]; try discriminate.
  eapply perform_len; eauto.
Qed.

(** The result does not depend on the fuel once it exceeds the length of the list. *)
Lemma aux_loop_fuel : forall f1 f2 flags uc skip prev depth l i st subs (s : wst W),
  (length l < f1)%nat -> (length l < f2)%nat ->
  aux_loop call f1 flags uc skip prev depth l i st subs s =
  aux_loop call f2 flags uc skip prev depth l i st subs s.
Proof.
  induction f1 as [|f1 IH]; intros f2 flags uc skip prev depth l i st subs s H1 H2; [lia|].
  destruct f2 as [|f2]; [lia|].
  destruct l as [|h t]; [reflexivity|].
  cbn [aux_loop].
  destruct (step call flags uc skip prev depth h t i st subs s) as [t' d' i' st' subs' s'|o] eqn:E;
    [|reflexivity].
  apply step_len in E. simpl in H1, H2. apply IH; lia.
Qed.

(** The loop with enough fuel. *)
Definition run flags uc skip prev depth l i st subs (s : wst W) : aout W :=
  aux_loop call (S (length l)) flags uc skip prev depth l i st subs s.

Lemma run_nil : forall flags uc skip prev depth i st subs s,
  run flags uc skip prev depth [] i st subs s = AFin (finish i st) s.
Proof. reflexivity. Qed.

Lemma run_cons : forall flags uc skip prev depth h t i st subs s,
  run flags uc skip prev depth (h :: t) i st subs s =
  match step call flags uc skip prev depth h t i st subs s with
  | StNext t' d' i' st' subs' s' => run flags uc skip (h_level h) d' t' i' st' subs' s'
  | StOut o => o
  end.
Proof.
  intros. unfold run. cbn [length]. remember (S (length t)) as n.
  change (aux_loop call (S n) flags uc skip prev depth (h :: t) i st subs s) with
    (match step call flags uc skip prev depth h t i st subs s with
     | StNext t' d' i' st' subs' s' => aux_loop call n flags uc skip (h_level h) d' t' i' st' subs' s'
     | StOut o => o
     end).
  destruct (step call flags uc skip prev depth h t i st subs s) as [t' d' i' st' subs' s'|o] eqn:E;
    [|reflexivity].
  apply step_len in E. apply aux_loop_fuel; lia.
Qed.

Local Opaque run.

(** ** Shape of flattened stacks *)

Lemma flat_cons : forall x l, flat (x :: l) = flat_item x ++ flat l.
Proof. reflexivity. Qed.

Section ItemInd.
  Variable P : item -> Prop.
  Hypothesis HM : forall h, P (Mod h).
  Hypothesis HS : forall m body, Forall P body -> P (Sub m body).
  Fixpoint item_ind' (x : item) : P x :=
    match x with
    | Mod h => HM h
    | Sub m body =>
        HS m body ((fix go (l : list item) : Forall P l :=
                      match l with
                      | [] => Forall_nil _
                      | y :: t => Forall_cons _ (item_ind' y) (go t)
                      end) body)
    end.
End ItemInd.

(** Everything in an item placed at [lvl] is at least at [lvl]; it starts with a handler exactly at
    [lvl] and the others are deeper. *)
Lemma placed_shape : forall nc x lvl, placed nc lvl x ->
  exists h t, flat_item x = h :: t /\ h_level h = lvl /\
              Forall (fun g => (lvl < h_level g)%nat) t.
Proof.
  intros nc x. induction x as [h|m body IH] using item_ind'; intros lvl H; inversion H; subst.
  - exists h, []. simpl. destruct H2 as [? _]. auto.
  - exists m, (flat_map flat_item body). simpl. repeat split; auto.
    match goal with K : Forall (placed nc _) body |- _ => rename K into HB end.
    clear - IH HB. induction body as [|y body IHb]; simpl; [constructor|].
    inversion IH; inversion HB; subst. apply Forall_app; split; [|auto].
    match goal with K : placed nc _ y, L : forall lvl, placed nc lvl y -> _ |- _ => destruct (L _ K) as (h & t & E & E1 & E2) end.
    rewrite E. constructor; [lia|]. eapply Forall_impl; [|exact E2]. simpl; intros; lia.
Qed.

(** [ends lvl l]: the list is empty or continues below level [lvl]. *)
Definition ends (lvl : nat) (l : list handler) : Prop :=
  match l with [] => True | h :: _ => (h_level h < lvl)%nat end.

Lemma skip_deeper : forall lvl t rest a d,
  Forall (fun g => (lvl < h_level g)%nat) t ->
  do_jump lvl true a (t ++ rest) d = do_jump lvl true a rest (d + length t)%nat.
Proof.
  induction t as [|g t IH]; intros rest a d H; simpl.
  - f_equal; lia.
  - inversion H; subst.
    assert (E : (lvl <? h_level g)%nat = true) by (apply Nat.ltb_lt; auto).
    rewrite E. rewrite IH by auto. f_equal; lia.
Qed.

Lemma inner_irrelevant : forall lvl a l d b,
  match l with [] => True | h :: _ => (h_level h <= lvl)%nat end ->
  do_jump lvl b a l d = do_jump lvl true a l d.
Proof.
  intros lvl a l d b H. destruct l as [|h t]; [reflexivity|]. simpl.
  assert (E : (lvl <? h_level h)%nat = false) by (apply Nat.ltb_ge; auto).
  rewrite E, andb_false_r. simpl. reflexivity.
Qed.

Lemma flat_head : forall nc lvl l rest,
  Forall (placed nc lvl) l -> ends lvl rest ->
  match flat l ++ rest with [] => True | h :: _ => (h_level h <= lvl)%nat end.
Proof.
  intros nc lvl l rest H E. destruct l as [|x l]; simpl.
  - destruct rest; simpl in *; auto; lia.
  - inversion H; subst. destruct (placed_shape _ _ _ H2) as (h & t & E1 & E2 & _).
    rewrite E1. simpl. lia.
Qed.

(** Jumping over [n] items. *)
Lemma jump_flat : forall nc lvl l rest n d b,
  Forall (placed nc lvl) l -> ends lvl rest -> 0 <= n ->
  exists d',
  do_jump lvl b n (flat l ++ rest) d =
  (flat (skipn (Z.to_nat n) l) ++ rest, d', n - Z.min n (Z.of_nat (length l))).
Proof.
  induction l as [|x l IH]; intros rest n d b HP HE Hn.
  - exists d. rewrite skipn_nil. simpl. replace (n - Z.min n 0) with n by lia.
    destruct rest as [|h t]; [reflexivity|]. simpl in HE |- *.
    assert (E1 : (lvl <? h_level h)%nat = false) by (apply Nat.ltb_ge; lia).
    assert (E2 : (lvl <=? h_level h)%nat = false) by (apply Nat.leb_gt; lia).
    rewrite E1, E2, andb_false_r. reflexivity.
  - rewrite (inner_irrelevant _ _ _ _ b (flat_head _ _ _ _ HP HE)).
    inversion HP as [|? ? HX HL]; subst.
    destruct (placed_shape _ _ _ HX) as (h & t & E1 & E2 & E3).
    rewrite flat_cons, E1. simpl app. rewrite <- app_assoc.
    destruct (Z.eq_dec n 0) as [->|N].
    + exists d. cbn [do_jump].
      replace (lvl <? h_level h)%nat with false by (symmetry; apply Nat.ltb_ge; lia).
      replace (lvl <=? h_level h)%nat with true by (symmetry; apply Nat.leb_le; lia).
      change (Z.to_nat 0) with 0%nat. cbn [skipn]. rewrite flat_cons, E1.
      change ((h :: t) ++ flat l) with (h :: (t ++ flat l)).
      rewrite <- app_comm_cons, <- app_assoc. cbn [andb Z.ltb Z.compare].
      f_equal; simpl length; lia.
    + simpl do_jump.
      replace (lvl <? h_level h)%nat with false by (symmetry; apply Nat.ltb_ge; lia).
      replace (lvl <=? h_level h)%nat with true by (symmetry; apply Nat.leb_le; lia).
      replace (0 <? n) with true by (symmetry; apply Z.ltb_lt; lia). simpl andb. cbv iota.
      rewrite skip_deeper by assumption.
      destruct (IH rest (n - 1) (S d + length t)%nat true HL HE) as [d' Ed]; [lia|].
      exists d'. rewrite Ed.
      replace (Z.to_nat n) with (S (Z.to_nat (n - 1))) by lia. simpl skipn.
      f_equal. simpl length. lia.
Qed.

Lemma skip_rest_flat : forall nc lvl l rest d,
  Forall (placed nc lvl) l -> ends lvl rest ->
  exists d', skip_rest lvl (flat l ++ rest) d = (rest, d').
Proof.
  intros nc lvl l rest d HP HE.
  assert (HA : Forall (fun g => (lvl <= h_level g)%nat) (flat l)).
  { clear HE. induction l as [|x l IH]; [constructor|]. inversion HP; subst.
    rewrite flat_cons. apply Forall_app; split; auto.
    destruct (placed_shape _ _ _ H1) as (h & t & E1 & E2 & E3). rewrite E1.
    constructor; [lia|]. eapply Forall_impl; [|exact E3]. simpl; intros; lia. }
  revert d. induction (flat l) as [|g k IH]; intro d; simpl.
  - exists d. destruct rest as [|h t]; [reflexivity|]. simpl in *.
    replace (lvl <=? h_level h)%nat with false by (symmetry; apply Nat.leb_gt; lia). reflexivity.
  - inversion HA; subst.
    replace (lvl <=? h_level g)%nat with true by (symmetry; apply Nat.leb_le; lia). auto.
Qed.

(** ** Verdicts *)

Definition imp_of (v : verdict) : imp :=
  match v with Undecided => IUndef | Good _ => IPos | Bad _ => INeg end.
Definition status_of (v : verdict) : Z :=
  match v with Undecided => PAM_PERM_DENIED | Good c => c | Bad c => c end.

Lemma finish_outcome : forall v, finish (imp_of v) (status_of v) = outcome v.
Proof.
  destruct v as [|c|c]; simpl; unfold finish; simpl; auto.
  - rewrite andb_false_r; reflexivity.
  - rewrite andb_true_r; reflexivity.
Qed.

Lemma ok_verdict_spec : forall v r c,
  ok_verdict (imp_of v) (status_of v) r c =
  let v' := if (r =? PAM_IGNORE) && negb (c =? r) then v else count_ok v r in
  (imp_of v', status_of v').
Proof.
  intros v r c. unfold ok_verdict, ok_applies.
  assert (E : negb (r =? PAM_IGNORE) || (c =? r) = negb ((r =? PAM_IGNORE) && negb (c =? r))).
  { destruct (r =? PAM_IGNORE); destruct (c =? r); reflexivity. }
  rewrite E. destruct ((r =? PAM_IGNORE) && negb (c =? r)); simpl; [rewrite andb_false_r; reflexivity|].
  rewrite andb_true_r.
  destruct v as [|[|p|p]|k]; simpl; reflexivity.
Qed.

Lemma bad_verdict_spec : forall v r,
  bad_verdict (imp_of v) (status_of v) r =
  (imp_of (count_bad v r), status_of (count_bad v r)).
Proof. intros [|k|k] r; unfold bad_verdict; simpl; reflexivity. Qed.

Lemma record_upd : forall c i x c', upd c i x = Some c' -> record c i x = c'.
Proof.
  induction c as [|a c IH]; simpl; intros i x c' H; [discriminate|].
  destruct i; [inversion H; reflexivity|].
  destruct (upd c i x) eqn:E; [|discriminate]. inversion H; subst. f_equal; eauto.
Qed.

Lemma record_length : forall c i x, length (record c i x) = length c.
Proof. induction c as [|a c IH]; destruct i; simpl; auto. Qed.

Definition fz (uc : frozen) : bool := match uc with PLEASE_FREEZE => false | _ => true end.

Lemma is_good_imp : forall v, imp_eqb (imp_of v) IPos = is_good v.
Proof. destruct v; reflexivity. Qed.

(** How an item's request shows up in the flat walk: the state reached and the place where the
    walk goes on. *)
Definition same_below (lvl : nat) (a b : subst) : Prop :=
  length a = length b /\ forall j, (j <= lvl)%nat -> nth_error a j = nth_error b j.

Lemma same_below_refl : forall lvl a, same_below lvl a a.
Proof. split; auto. Qed.

Lemma same_below_trans : forall lvl a b c, same_below lvl a b -> same_below lvl b c -> same_below lvl a c.
Proof. intros lvl a b c [H1 H2] [H3 H4]; split; [congruence|]. intros j Hj. rewrite H2, H4; auto. Qed.

Lemma same_below_le : forall l1 l2 a b, (l1 <= l2)%nat -> same_below l2 a b -> same_below l1 a b.
Proof. intros l1 l2 a b H [H1 H2]; split; auto. intros j Hj; apply H2; lia. Qed.

Lemma same_below_upd : forall lvl a b i x, (lvl < i)%nat -> upd a i x = Some b -> same_below lvl a b.
Proof.
  intros lvl a b i x H E. split.
  - symmetry; eapply upd_length; eauto.
  - intros j Hj. symmetry. eapply upd_other; eauto. lia.
Qed.

(** After an item was processed: what the rest of the walk looks like.  [t] is the list following
    the item in its own (sub)stack, [rest] what follows that (sub)stack. *)
Definition reaches (flags : Z) (uc : frozen) (lvl : nat) (subs : subst) (target : list handler)
  (v : verdict) (w : W) (c : list Z) (o : aout W) : Prop :=
  exists prev depth subs' s',
    (lvl <= prev)%nat /\ same_below lvl subs subs' /\ ww s' = w /\ cache s' = c /\
    o = run flags uc 0 prev depth target (imp_of v) (status_of v) subs' s'.

Definition meets (flags : Z) (uc : frozen) (lvl : nat) (subs : subst) (entry : verdict)
  (t : list item) (rest : list handler) (a : ask W) (o : aout W) : Prop :=
  match a with
  | Continue v w c => reaches flags uc lvl subs (flat t ++ rest) v w c o
  | Jump n v w c =>
      0 < n /\
      if n <=? Z.of_nat (length t)
      then reaches flags uc lvl subs (flat (skipn (Z.to_nat n) t) ++ rest) v w c o
      else reaches flags uc lvl subs rest (Bad PAM_PERM_DENIED) w c o
  | Leave v w c => reaches flags uc lvl subs rest v w c o
  | Restore w c => reaches flags uc lvl subs (flat t ++ rest) entry w c o
  | Suspend w c => exists f s', o = AInc f s' /\ ww s' = w /\ cache s' = c
  end.

Definition ask_cache (a : ask W) : list Z :=
  match a with Continue _ _ c | Jump _ _ _ c | Leave _ _ c | Restore _ c | Suspend _ c => c end.

Local Ltac reach :=
  match goal with |- reaches _ _ ?lvl ?subs _ _ _ _ _ =>
    eexists lvl, _, subs, _; split; [lia|]; split; [apply same_below_refl|];
    split; [|split; [|reflexivity]]; solve [auto]
  end.

Lemma module_meets : forall flags uc nc lvl prev depth h t rest v entry subs (s : wst W),
  line_ok nc lvl h -> length (cache s) = nc -> Forall (placed nc lvl) t -> ends lvl rest ->
  (lvl <= prev)%nat -> uc <> MUST_BE_FROZEN ->
  nth_error subs lvl = Some (Some (imp_of entry, status_of entry)) ->
  meets flags uc lvl subs entry t rest
    (module_line call flags (fz uc) h v (ww s) (cache s))
    (run flags uc 0 prev depth (h :: flat t ++ rest) (imp_of v) (status_of v) subs s).
Proof.
  intros flags uc nc lvl prev depth h t rest v entry subs s (HL & HT & HA & HC1 & HC2) HN HP HE Hprev HU Hsub.
  rewrite run_cons. unfold step. rewrite HL. simpl Nat.ltb at 1.
  replace (depth <? 0)%nat with false by (symmetry; apply Nat.ltb_ge; lia).
  replace (prev <? lvl)%nat with false by (symmetry; apply Nat.ltb_ge; lia).
  unfold module_line.
  assert (HAT : exists s1, attempt call flags depth h s = Some (snd (result call flags h (ww s)), s1) /\
                ww s1 = fst (result call flags h (ww s)) /\ cache s1 = cache s).
  { unfold attempt, result. destruct (h_type h) eqn:ET; try congruence.
    - destruct (h_func h); [|eexists; simpl; eauto]. destruct (call h flags (ww s)) as [w' r]; simpl.
      eexists; simpl; eauto.
    - eexists; simpl; eauto.
    - destruct (h_func h); [|eexists; simpl; eauto]. destruct (call h flags (ww s)) as [w' r]; simpl.
      eexists; simpl; eauto. }
  destruct HAT as (s1 & EAT & EW & EC). rewrite EAT. clear EAT HT.
  destruct (result call flags h (ww s)) as [w' r] eqn:ER. simpl fst in *; simpl snd in *.
  destruct (r =? PAM_INCOMPLETE) eqn:EI.
  { simpl. eexists _, s1. split; [reflexivity|]. split; congruence. }
  (* the cached value *)
  set (key := if fz uc then (if nth (h_cellp h) (cache s) (-1) =? -1 then r else nth (h_cellp h) (cache s) (-1)) else r).
  set (c' := if fz uc then cache s else record (cache s) (h_cell h) r).
  assert (HF : exists s2, freeze uc h r s1 = Ok (key, s2) /\ ww s2 = w' /\ cache s2 = c').
  { subst key c'. destruct uc; simpl.
    - destruct (upd_some _ (cache s1) (h_cell h) r) as [cc E]; [rewrite EC; lia|].
      rewrite E. eexists; split; [reflexivity|]. simpl. split; [congruence|].
      rewrite EC in E. apply record_upd in E. congruence.
    - destruct (nth_error (cache s1) (h_cellp h)) as [k|] eqn:E.
      + rewrite EC in E. rewrite (nth_error_nth _ _ (-1) E).
        destruct (k =? -1) eqn:Ek; eexists; split; try reflexivity; split; congruence.
      + exfalso. apply nth_error_None in E. rewrite EC in E. lia.
    - congruence. }
  destruct HF as (s2 & EF & EW2 & EC2). rewrite EF. clear EF.
  change (if fz uc then if nth (h_cellp h) (cache s) (-1) =? -1 then r else nth (h_cellp h) (cache s) (-1) else r) with key.
  change (if fz uc then cache s else record (cache s) (h_cell h) r) with c'.
  clearbody key c'.
  unfold select.
  replace (PAM_RETURN_VALUES <=? key) with (31 <? key)
    by (destruct (Z.ltb_spec 31 key), (Z.leb_spec 32 key); lia).
  destruct ((key <? 0) || (31 <? key)) eqn:EK.
  { (* out of range *)
    unfold perform. simpl Z.eqb. cbv iota. simpl orb. cbv iota.
    rewrite bad_verdict_spec. cbn [meets].
    exists lvl, (S depth), subs, s2. repeat split; auto using same_below_refl. }
  assert (HK : 0 <= key <= 31).
  { apply orb_false_iff in EK; destruct EK as [E1 E2]. apply Z.ltb_ge in E1, E2. lia. }
  destruct (nth_error (h_actions h) (Z.to_nat key)) as [a|] eqn:EA.
  2: { apply nth_error_None in EA. lia. }
  rewrite (nth_error_nth _ _ 0 EA).
  set (ok := if (r =? PAM_IGNORE) && negb (key =? r) then v else count_ok v r) in *.
  assert (HOK : ok_verdict (imp_of v) (status_of v) r key = (imp_of ok, status_of ok))
    by apply ok_verdict_spec.
  clearbody ok.
  assert (Hgr : forall b, ww (if (b : bool) then grant_at depth s2 else s2) = w' /\
                          cache (if b then grant_at depth s2 else s2) = c').
  { destruct b; simpl; auto. }
  assert (BADJ : forall a, a < -5 ->
    meets flags uc lvl subs entry t rest (Continue (Bad PAM_PERM_DENIED) w' c')
     match perform uc lvl depth (flat t ++ rest) (imp_of v) (status_of v) subs r key a s2 with
     | StNext t' d' i' st' subs' s' => run flags uc 0 lvl d' t' i' st' subs' s'
     | StOut o => o end).
  { intros a' Ha. unfold perform.
    replace (a' =? -5) with false by (symmetry; apply Z.eqb_neq; lia).
    replace (a' =? -1) with false by (symmetry; apply Z.eqb_neq; lia).
    replace (a' =? -2) with false by (symmetry; apply Z.eqb_neq; lia).
    replace (a' =? -3) with false by (symmetry; apply Z.eqb_neq; lia).
    replace (a' =? -4) with false by (symmetry; apply Z.eqb_neq; lia).
    replace (a' =? 0) with false by (symmetry; apply Z.eqb_neq; lia).
    replace (0 <? a') with false by (symmetry; apply Z.ltb_ge; lia).
    simpl. exists lvl, (S depth), subs, s2. repeat split; auto. }
  destruct a as [|p|p].
  - (* ignore *) simpl. exists lvl, (S depth), subs, s2. repeat split; auto.
  - (* jump *)
    unfold perform. simpl Z.eqb. simpl orb. cbv iota. simpl Z.ltb. cbv iota.
    destruct (jump_flat nc lvl t rest (Z.pos p) (S depth) false HP HE) as [d' ED]; [lia|].
    rewrite ED. clear ED.
    assert (HV : (match uc with PLEASE_FREEZE => (imp_of v, status_of v)
                  | _ => ok_verdict (imp_of v) (status_of v) r key end) =
                 (let v' := if fz uc then ok else v in (imp_of v', status_of v')))
      by (destruct uc; simpl; auto).
    rewrite HV. clear HV. cbv beta zeta.
    set (v' := if fz uc then ok else v).
    assert (HG : exists b : bool, match uc with
               | PLEASE_FREEZE => s2
               | _ => if imp_eqb (imp_of v) IUndef && (r =? PAM_SUCCESS) then grant_at depth s2 else s2
               end = if b then grant_at depth s2 else s2).
    { destruct uc; [exists false; reflexivity| |]; eexists; reflexivity. }
    destruct HG as [b HG]. rewrite HG. clear HG.
    destruct (Hgr b) as [Hg1 Hg2].
    cbn [meets]. split; [lia|].
    destruct (Z.leb_spec (Z.pos p) (Z.of_nat (length t))) as [HJ|HJ].
    + replace (Z.pos p - Z.min (Z.pos p) (Z.of_nat (length t)) =? 0) with true
        by (symmetry; apply Z.eqb_eq; lia).
      reach.
    + replace (Z.pos p - Z.min (Z.pos p) (Z.of_nat (length t)) =? 0) with false
        by (symmetry; apply Z.eqb_neq; lia).
      rewrite skipn_all2 by lia. simpl app.
      reach.
  - (* negative *)
    assert (HD : Z.neg p = -1 \/ Z.neg p = -2 \/ Z.neg p = -3 \/ Z.neg p = -4 \/ Z.neg p = -5 \/ Z.neg p < -5) by lia.
    destruct HD as [HD|[HD|[HD|[HD|[HD|HD]]]]].
    + (* ok *) injection HD as ->. unfold perform. simpl Z.eqb. simpl orb. cbv iota. rewrite HOK.
      rewrite andb_false_r.
      destruct (Hgr (imp_eqb (imp_of ok) IPos && (r =? PAM_SUCCESS))) as [Hg1 Hg2].
      cbn [meets]. reach.
    + (* done *) injection HD as ->. unfold perform. simpl Z.eqb. simpl orb. cbv iota. rewrite HOK.
      rewrite andb_true_r.
      destruct (Hgr (imp_eqb (imp_of ok) IPos && (r =? PAM_SUCCESS))) as [Hg1 Hg2].
      rewrite (is_good_imp ok) in *.
      destruct (is_good ok) eqn:EG.
      * destruct (skip_rest_flat nc lvl t rest (S depth) HP HE) as [d' ED]. rewrite ED.
        cbn [meets]. reach.
      * cbn [meets]. reach.
    + (* bad *) injection HD as ->. unfold perform. simpl Z.eqb. simpl orb. cbv iota. rewrite bad_verdict_spec.
      cbn [meets]. reach.
    + (* die *) injection HD as ->. unfold perform. simpl Z.eqb. simpl orb. cbv iota. rewrite bad_verdict_spec.
      destruct (skip_rest_flat nc lvl t rest (S depth) HP HE) as [d' ED]. rewrite ED.
      cbn [meets]. reach.
    + (* reset *) injection HD as ->. unfold perform. simpl Z.eqb. cbv iota. rewrite Hsub.
      cbn [meets]. reach.
    + (* unknown *) specialize (BADJ _ HD).
      destruct p as [[q|[q|q|]|]|[q|[q|q|]|]|]; try lia; exact BADJ.
Qed.

(** ** Whole (sub)stacks *)

Lemma module_line_cache : forall flags b h v w c,
  length (ask_cache (module_line call flags b h v w c)) = length c.
Proof.
  intros. unfold module_line. destruct (result call flags h w) as [w' r].
  destruct (r =? PAM_INCOMPLETE); [reflexivity|].
  set (key := if b then if nth (h_cellp h) c (-1) =? -1 then r else nth (h_cellp h) c (-1) else r).
  assert (E : length (if b then c else record c (h_cell h) r) = length c)
    by (destruct b; auto using record_length).
  destruct ((key <? 0) || (31 <? key)); [exact E|].
  destruct (nth (Z.to_nat key) (h_actions h) 0) as [|p|[[q|[q|q|]|]|[q|[q|q|]|]|]];
    try exact E; cbn [ask_cache Z.ltb Z.compare]; try exact E.
  destruct (is_good _); exact E.
Qed.

Definition sout_cache (o : sout W) : list Z :=
  match o with SDone _ _ c => c | SSuspended _ c => c end.

Lemma walk_cache : forall ri entry l,
  (forall x, In x l -> forall v w c, length (ask_cache (ri x v w c)) = length c) ->
  forall skip v w c, length (sout_cache (@walk W ri entry skip l v w c)) = length c.
Proof.
  intros ri entry l. induction l as [|x l IH]; intros HI skip v w c; [reflexivity|].
  cbn [walk]. destruct (0 <? skip); [apply IH; intros; apply HI; right; auto|].
  pose proof (HI x (or_introl eq_refl) v w c) as HX.
  assert (IH' : forall skip v w c', length c' = length c ->
                length (sout_cache (walk ri entry skip l v w c')) = length c).
  { intros sk v0 w0 c0 H0. rewrite IH by (intros; apply HI; right; auto). exact H0. }
  destruct (ri x v w c); simpl in HX; simpl; auto.
Qed.

Lemma run_item_cache : forall flags b x v w c,
  length (ask_cache (run_item call flags b x v w c)) = length c.
Proof.
  intros flags b x. induction x as [h|m body IH] using item_ind'; intros v w c; simpl.
  - apply module_line_cache.
  - rewrite Forall_forall in IH.
    pose proof (walk_cache (run_item call flags b) v body IH 0 v w c) as H.
    destruct (walk (run_item call flags b) v 0 body v w c); exact H.
Qed.

Lemma walk_skip : forall ri entry l n v w c, 0 <= n ->
  @walk W ri entry n l v w c =
  if n <=? Z.of_nat (length l) then walk ri entry 0 (skipn (Z.to_nat n) l) v w c
  else SDone (Bad PAM_PERM_DENIED) w c.
Proof.
  intros ri entry l. induction l as [|x l IH]; intros n v w c Hn.
  - simpl. destruct (Z.ltb_spec 0 n), (Z.leb_spec n 0); try lia; rewrite ?skipn_nil; reflexivity.
  - destruct (Z.eq_dec n 0) as [->|N]; [reflexivity|].
    cbn [walk]. replace (0 <? n) with true by (symmetry; apply Z.ltb_lt; lia).
    rewrite IH by lia. cbn [length].
    replace (Z.to_nat n) with (S (Z.to_nat (n - 1))) by lia. cbn [skipn].
    destruct (Z.leb_spec (n - 1) (Z.of_nat (length l))), (Z.leb_spec n (Z.of_nat (S (length l)))); auto; lia.
Qed.

(** What simulating a (sub)stack means. *)
Definition ends_as (flags : Z) (uc : frozen) (lvl : nat) (subs : subst) (rest : list handler)
  (o : sout W) (r : aout W) : Prop :=
  match o with
  | SDone v w c => reaches flags uc lvl subs rest v w c r
  | SSuspended w c => exists f s', r = AInc f s' /\ ww s' = w /\ cache s' = c
  end.

Definition item_sim (flags : Z) (uc : frozen) (nc : nat) (x : item) : Prop :=
  forall lvl prev depth t rest v entry subs (s : wst W),
  placed nc lvl x -> length (cache s) = nc -> length subs = SUBSTACK_MAX ->
  Forall (placed nc lvl) t -> ends lvl rest -> (lvl <= prev)%nat ->
  nth_error subs lvl = Some (Some (imp_of entry, status_of entry)) ->
  meets flags uc lvl subs entry t rest
    (run_item call flags (fz uc) x v (ww s) (cache s))
    (run flags uc 0 prev depth (flat_item x ++ flat t ++ rest) (imp_of v) (status_of v) subs s).

Lemma reaches_trans : forall flags uc lvl subs subs' target v w c o,
  same_below lvl subs subs' -> reaches flags uc lvl subs' target v w c o ->
  reaches flags uc lvl subs target v w c o.
Proof.
  intros flags uc lvl subs subs' target v w c o H (p & d & sb & s' & H1 & H2 & H3).
  exists p, d, sb, s'. split; [auto|]. split; [eapply same_below_trans; eauto|auto].
Qed.

Lemma ends_as_trans : forall flags uc lvl subs subs' rest o r,
  same_below lvl subs subs' -> ends_as flags uc lvl subs' rest o r ->
  ends_as flags uc lvl subs rest o r.
Proof.
  intros flags uc lvl subs subs' rest [v w c|w c] r H H1; simpl in *; auto.
  eapply reaches_trans; eauto.
Qed.

Lemma Forall_skipn : forall A (P : A -> Prop) n l, Forall P l -> Forall P (skipn n l).
Proof.
  induction n as [|n IH]; intros l H; [exact H|]. destruct l; [constructor|].
  inversion H; subst; simpl; auto.
Qed.

Lemma list_sim : forall flags uc nc lvl n l,
  (length l <= n)%nat -> Forall (item_sim flags uc nc) l ->
  forall prev depth rest v entry subs (s : wst W),
  Forall (placed nc lvl) l -> length (cache s) = nc -> length subs = SUBSTACK_MAX ->
  ends lvl rest -> (lvl <= prev)%nat ->
  nth_error subs lvl = Some (Some (imp_of entry, status_of entry)) ->
  ends_as flags uc lvl subs rest
    (walk (run_item call flags (fz uc)) entry 0 l v (ww s) (cache s))
    (run flags uc 0 prev depth (flat l ++ rest) (imp_of v) (status_of v) subs s).
Proof.
  intros flags uc nc lvl n. induction n as [|n IH]; intros l HL HS prev depth rest v entry subs s HP HC HSL HE Hprev Hsub.
  - destruct l; [|simpl in HL; lia]. simpl.
    exists prev, depth, subs, s. repeat split; auto.
  - destruct l as [|x t]; [simpl; exists prev, depth, subs, s; repeat split; auto|].
    inversion HP as [|? ? HPx HPt]; inversion HS as [|? ? HSx HSt]; subst.
    pose proof (HSx lvl prev depth t rest v entry subs s HPx eq_refl HSL HPt HE Hprev Hsub) as HM.
    rewrite flat_cons, <- app_assoc. cbn [walk]. change (0 <? 0) with false. cbv iota.
    pose proof (run_item_cache flags (fz uc) x v (ww s) (cache s)) as HCC.
    (* generic continuation *)
    assert (CONT : forall t' v' w' c' o, (length t' <= n)%nat -> Forall (item_sim flags uc (length (cache s))) t' ->
              Forall (placed (length (cache s)) lvl) t' -> length c' = length (cache s) ->
              reaches flags uc lvl subs (flat t' ++ rest) v' w' c' o ->
              ends_as flags uc lvl subs rest (walk (run_item call flags (fz uc)) entry 0 t' v' w' c') o).
    { intros t' v' w' c' o L1 L2 L3 L4 (p & d & sb & s' & R1 & R2 & R3 & R4 & ->).
      eapply ends_as_trans; [exact R2|]. subst w' c'.
      apply IH; auto.
      - destruct R2; congruence.
      - destruct R2 as [_ R2]. rewrite <- R2; auto. }
    simpl in HL.
    destruct (run_item call flags (fz uc) x v (ww s) (cache s)) as [v' w' c'|k v' w' c'|v' w' c'|w' c'|w' c'];
      cbn [meets ask_cache] in HM, HCC.
    + apply CONT; auto; lia.
    + destruct HM as [Hk HM]. rewrite walk_skip by lia.
      destruct (Z.leb_spec k (Z.of_nat (length t))) as [Hle|Hgt].
      * apply CONT; auto using Forall_skipn. rewrite skipn_length. lia.
      * exact HM.
    + exact HM.
    + apply CONT; auto; lia.
    + exact HM.
Qed.

(** Entering a substack saves the verdict at the new level. *)
Lemma enter : forall flags uc lvl depth h t i st subs subs1 (s : wst W),
  h_level h = S lvl -> upd subs (S lvl) (Some (i, st)) = Some subs1 ->
  run flags uc 0 lvl depth (h :: t) i st subs s = run flags uc 0 (S lvl) depth (h :: t) i st subs1 s.
Proof.
  intros flags uc lvl depth h t i st subs subs1 s HL HU.
  rewrite !run_cons. unfold step. rewrite HL.
  replace (lvl <? S lvl)%nat with true by (symmetry; apply Nat.ltb_lt; lia).
  replace (S lvl <? S lvl)%nat with false by (symmetry; apply Nat.ltb_ge; lia).
  rewrite HU. reflexivity.
Qed.

Lemma item_sim_all : forall flags uc nc x, uc <> MUST_BE_FROZEN -> item_sim flags uc nc x.
Proof.
  intros flags uc nc x HU. induction x as [h|m body IH] using item_ind'.
  - intros lvl prev depth t rest v entry subs s HP HC HSL HPt HE Hprev Hsub.
    inversion HP; subst. simpl flat_item. simpl app. cbn [run_item].
    eapply module_meets; eauto.
  - intros lvl prev depth t rest v entry subs s HP HC HSL HPt HE Hprev Hsub.
    inversion HP as [|? ? ? HLm HTm Hmax HB]; subst.
    cbn [flat_item]. rewrite <- app_comm_cons. rewrite run_cons. unfold step.
    replace (depth <? 0)%nat with false by (symmetry; apply Nat.ltb_ge; lia).
    replace (prev <? h_level m)%nat with false by (symmetry; apply Nat.ltb_ge; lia).
    unfold attempt. rewrite HTm. cbn [run_item].
    destruct body as [|y body].
    { simpl. exists (h_level m), (S depth), subs, s. repeat split; auto. }
    destruct Hmax as [Hmax|Hmax]; [discriminate|].
    destruct (upd_some _ subs (S (h_level m)) (Some (imp_of v, status_of v))) as [subs1 EU]; [lia|].
    assert (HSUB1 : nth_error subs1 (S (h_level m)) = Some (Some (imp_of v, status_of v)))
      by (eapply upd_same; eauto).
    assert (HSL1 : length subs1 = SUBSTACK_MAX) by (rewrite (upd_length _ _ _ _ _ EU); auto).
    assert (HE1 : ends (S (h_level m)) (flat t ++ rest)).
    { pose proof (flat_head _ _ _ _ HPt HE) as HH. unfold ends.
      destruct (flat t ++ rest); auto; lia. }
    pose proof (list_sim flags uc (length (cache s)) (S (h_level m)) (length (y :: body)) (y :: body) (le_n _) IH
                  (S (h_level m)) (S depth) (flat t ++ rest) v v subs1 s HB eq_refl HSL1 HE1 (le_n _) HSUB1) as HW.
    assert (ER : run flags uc 0 (h_level m) (S depth) (flat (y :: body) ++ flat t ++ rest) (imp_of v) (status_of v) subs s
               = run flags uc 0 (S (h_level m)) (S depth) (flat (y :: body) ++ flat t ++ rest) (imp_of v) (status_of v) subs1 s).
    { inversion HB as [|? ? HPy HPb]; subst. destruct (placed_shape _ _ _ HPy) as (g & k & E1 & E2 & _).
      rewrite flat_cons, E1. rewrite <- !app_comm_cons. apply enter; auto. }
    change (flat_map flat_item (y :: body)) with (flat (y :: body)).
    rewrite ER.
    assert (SB : same_below (h_level m) subs subs1).
    { eapply same_below_upd; [|exact EU]. lia. }
    destruct (walk (run_item call flags (fz uc)) v 0 (y :: body) v (ww s) (cache s)) as [v' w' c'|w' c'];
      cbn [ends_as meets] in *.
    + destruct HW as (p & d & sb & s' & R1 & R2 & R3 & R4 & R5).
      exists p, d, sb, s'. split; [lia|]. split; [|auto].
      eapply same_below_trans; [exact SB|]. eapply same_below_le; [|exact R2]. lia.
    + exact HW.
Qed.

(** The fresh walk of a whole stack. *)
Lemma fresh_sim : forall flags uc nc l (s : wst W),
  uc <> MUST_BE_FROZEN -> Forall (placed nc 0) l -> length (cache s) = nc ->
  match run_stack call flags (fz uc) l (ww s) (cache s) with
  | SDone v w c => exists s', run flags uc 0 0 0 (flat l) IUndef PAM_PERM_DENIED fresh_subs s = AFin (outcome v) s' /\
                              ww s' = w /\ cache s' = c
  | SSuspended w c => exists f s', run flags uc 0 0 0 (flat l) IUndef PAM_PERM_DENIED fresh_subs s = AInc f s' /\
                              ww s' = w /\ cache s' = c
  end.
Proof.
  intros flags uc nc l s HU HP HC.
  assert (HI : Forall (item_sim flags uc nc) l).
  { apply Forall_forall. intros; apply item_sim_all; auto. }
  pose proof (list_sim flags uc nc 0 (length l) l (le_n _) HI 0%nat 0%nat [] Undecided Undecided fresh_subs s
                HP HC eq_refl I (le_n _) eq_refl) as H.
  rewrite app_nil_r in H. unfold run_stack. simpl imp_of in H. simpl status_of in H.
  destruct (walk _ _ _ _ _ _ _) as [v w c|w c]; cbn [ends_as] in H.
  - destruct H as (p & d & sb & s' & R1 & R2 & R3 & R4 & R5). exists s'.
    rewrite R5, run_nil, finish_outcome. auto.
  - exact H.
Qed.

End P.
