(** Stacks written with the keywords required, requisite, sufficient and optional. *)
From Coq Require Import List Arith ZArith Lia Bool.
From Verif Require Import Base Dispatch_Model Dispatch_Spec Dispatch_Proofs.
Import ListNotations.
Local Open Scope Z_scope.

(** ** Specification, after pam.conf(5) *)

Inductive kw := Required | Requisite | Sufficient | Optional.

Definition in_range (r : Z) : bool := (0 <=? r) && (r <? 32).
(** A module is content: PAM_SUCCESS or PAM_NEW_AUTHTOK_REQD. *)
Definition content (r : Z) : bool := (r =? PAM_SUCCESS) || (r =? PAM_NEW_AUTHTOK_REQD).
(** A failure that counts: of a required or requisite module (unless it asks to be ignored), or an
    answer that is no PAM return code at all. *)
Definition failure (a : kw * Z) : bool :=
  match fst a with
  | Required | Requisite => negb (content (snd a)) && negb (snd a =? PAM_IGNORE)
  | Sufficient | Optional => negb (in_range (snd a))
  end.
(** The code reported for such a failure. *)
Definition failure_code (r : Z) : Z := if in_range r then r else PAM_PERM_DENIED.

(** Does this answer end the stack, given whether a counting failure came before? *)
Definition decides (failed : bool) (a : kw * Z) : bool :=
  match fst a with
  | Requisite => failure a && in_range (snd a)
  | Sufficient => content (snd a) && negb failed
  | _ => false
  end.

(** The answers up to and including the deciding one. *)
Fixpoint considered (failed : bool) (l : list (kw * Z)) : list (kw * Z) :=
  match l with
  | [] => []
  | a :: t => a :: if decides failed a then [] else considered (failed || failure a) t
  end.

(** The result: the first counting failure, else the first content answer that is not a plain
    PAM_SUCCESS, else PAM_SUCCESS if anybody was content, else PAM_PERM_DENIED. *)
Definition verdict_of (c : list (kw * Z)) : Z :=
  match find failure c with
  | Some a => failure_code (snd a)
  | None =>
      match filter content (map snd c) with
      | [] => PAM_PERM_DENIED
      | oks => match find (fun r => negb (r =? PAM_SUCCESS)) oks with Some r => r | None => PAM_SUCCESS end
      end
  end.

Definition kw_result (l : list (kw * Z)) : Z := verdict_of (considered false l).

(** The action of a keyword for a return code. *)
Definition kw_action (k : kw) (r : nat) : Z :=
  match k, r with
  | Required, (0 | 12)%nat => ACT_OK
  | Required, 25%nat => ACT_IGNORE
  | Required, _ => ACT_BAD
  | Requisite, (0 | 12)%nat => ACT_OK
  | Requisite, 25%nat => ACT_IGNORE
  | Requisite, _ => ACT_DIE
  | Sufficient, (0 | 12)%nat => ACT_DONE
  | Sufficient, _ => ACT_IGNORE
  | Optional, (0 | 12)%nat => ACT_OK
  | Optional, _ => ACT_IGNORE
  end.
Definition kw_table (k : kw) : list Z := map (kw_action k) (seq 0 32).

(** A line of such a stack. *)
Definition kw_line (nc : nat) (p : kw * handler) : Prop :=
  h_actions (snd p) = kw_table (fst p) /\ h_level (snd p) = 0%nat /\ h_type (snd p) <> HT_SUBSTACK /\
  (h_cell (snd p) < nc)%nat /\ (h_cellp (snd p) < nc)%nat.

Section K.
Variable W : Type.
Variable call : handler -> Z -> W -> W * Z.
Variable flags : Z.

(** What the modules answer when asked one after the other. *)
Fixpoint answers (l : list (kw * handler)) (w : W) : list (kw * Z) :=
  match l with
  | [] => []
  | (k, h) :: t => let (w', r) := result call flags h w in (k, r) :: answers t w'
  end.

(** ** Proof *)

Lemma kw_nth : forall k r, 0 <= r < 32 -> nth (Z.to_nat r) (kw_table k) 0 = kw_action k (Z.to_nat r).
Proof.
  intros k r H. unfold kw_table. rewrite (nth_indep _ 0 (kw_action k 0)) by (rewrite map_length, seq_length; lia).
  rewrite map_nth, seq_nth by lia. reflexivity.
Qed.

Lemma kw_action_spec : forall k r, 0 <= r < 32 ->
  kw_action k (Z.to_nat r) =
  if content r then (match k with Sufficient => ACT_DONE | _ => ACT_OK end)
  else match k with
       | Required => if r =? PAM_IGNORE then ACT_IGNORE else ACT_BAD
       | Requisite => if r =? PAM_IGNORE then ACT_IGNORE else ACT_DIE
       | _ => ACT_IGNORE
       end.
Proof.
  intros k r H.
  assert (E : exists n, (n < 32)%nat /\ r = Z.of_nat n) by (exists (Z.to_nat r); lia).
  destruct E as (n & Hn & ->). rewrite Nat2Z.id.
  do 32 (destruct n as [|n]; [destruct k; reflexivity|]). lia.
Qed.

(** Fold the considered answers into a verdict. *)
Definition absorb (v : verdict) (a : kw * Z) : verdict :=
  if failure a then count_bad v (failure_code (snd a))
  else if content (snd a) then count_ok v (snd a) else v.

Definition is_bad (v : verdict) : bool := match v with Bad _ => true | _ => false end.

Lemma absorb_bad : forall v a, is_bad (absorb v a) = is_bad v || failure a.
Proof.
  intros v a. unfold absorb. destruct (failure a).
  - rewrite orb_true_r. destruct v; reflexivity.
  - rewrite orb_false_r. destruct (content (snd a)); auto. destruct v as [|[|p|p]|c]; reflexivity.
Qed.

Lemma run_kw : forall l nc v w c,
  Forall (kw_line nc) l -> length c = nc ->
  ~ In PAM_INCOMPLETE (map snd (answers l w)) ->
  exists w' c', walk (run_item call flags false) Undecided 0 (map (fun p => Mod (snd p)) l) v w c =
    SDone (fold_left absorb (considered (is_bad v) (answers l w)) v) w' c'.
Proof.
  induction l as [|[k h] l IH]; intros nc v w c HL HC HN.
  - simpl. do 2 eexists; reflexivity.
  - inversion HL as [|? ? HH HT]; subst. destruct HH as (HA & HLv & HTy & HC1 & HC2). simpl in HA, HLv, HTy, HC1, HC2.
    cbn [map walk answers run_item snd]. change (0 <? 0) with false. cbv iota.
    simpl in HN. unfold module_line.
    destruct (result call flags h w) as [w' r] eqn:ER. simpl in HN.
    assert (NI : r <> 31) by auto. assert (HN' : ~ In 31 (map snd (answers l w'))) by auto.
    replace (r =? 31) with false by (symmetry; apply Z.eqb_neq; auto).
    rewrite HA.
    set (c' := record c (h_cell h) r).
    assert (HC' : length c' = length c) by apply record_length.
    cbn [considered].
    replace (31 <? r) with (32 <=? r) by (destruct (Z.ltb_spec 31 r), (Z.leb_spec 32 r); lia).
    destruct ((r <? 0) || (32 <=? r)) eqn:EK.
    + assert (IR : in_range r = false).
      { unfold in_range. apply orb_true_iff in EK.
        destruct EK as [E|E]; [apply Z.ltb_lt in E|apply Z.leb_le in E]; apply andb_false_iff; [left|right];
        [apply Z.leb_gt|apply Z.ltb_ge]; lia. }
      assert (FA : failure (k, r) = true).
      { unfold failure. cbn [fst snd]. rewrite IR. destruct k; auto;
          unfold content; unfold in_range in IR; apply andb_false_iff in IR;
          destruct (Z.eqb_spec r 0), (Z.eqb_spec r 12), (Z.eqb_spec r 25); subst; auto;
          destruct IR; discriminate. }
      assert (DE : decides (is_bad v) (k, r) = false).
      { unfold decides. cbn [fst snd]. rewrite IR. destruct k; auto using andb_false_r.
        unfold content. unfold in_range in IR. apply andb_false_iff in IR.
        destruct (Z.eqb_spec r 0), (Z.eqb_spec r 12); subst; auto; destruct IR; discriminate. }
      rewrite DE. simpl fold_left.
      destruct (IH (length c) (count_bad v PAM_PERM_DENIED) w' c' HT HC' HN') as (w2 & c2 & E2).
      assert (AB : absorb v (k, r) = count_bad v 6).
      { unfold absorb. rewrite FA. unfold failure_code. cbn [snd]. rewrite IR. reflexivity. }
      rewrite E2, AB. do 2 eexists. rewrite FA, orb_true_r. destruct v; reflexivity.
    + apply orb_false_iff in EK. destruct EK as [E1 E2]. apply Z.ltb_ge in E1. apply Z.leb_gt in E2.
      assert (IR : in_range r = true).
      { unfold in_range. apply andb_true_iff. split; [apply Z.leb_le|apply Z.ltb_lt]; lia. }
      rewrite kw_nth, kw_action_spec by lia.
      replace ((r =? 25) && negb (r =? r)) with false by (rewrite Z.eqb_refl, andb_false_r; reflexivity).
      assert (CI : content r = true -> (r =? 25) = false).
      { unfold content. destruct (Z.eqb_spec r 0), (Z.eqb_spec r 12), (Z.eqb_spec r 25); subst; auto; discriminate. }
      (* next step of the walk for a continuing verdict *)
      assert (NXT : forall v', v' = absorb v (k, r) -> decides (is_bad v) (k, r) = false ->
        exists w2 c2, walk (run_item call flags false) Undecided 0 (map (fun p => Mod (snd p)) l) v' w' c' =
          SDone (fold_left absorb ((k, r) :: (if decides (is_bad v) (k, r) then [] else considered (is_bad v || failure (k, r)) (answers l w'))) v) w2 c2).
      { intros v' -> DE. rewrite DE. simpl fold_left. rewrite <- absorb_bad. apply (IH (length c)); auto. }
      destruct (content r) eqn:ECr.
      * assert (FA : failure (k, r) = false).
        { unfold failure. cbn [fst snd]. rewrite ECr, IR. destruct k; reflexivity. }
        assert (AB : absorb v (k, r) = count_ok v r).
        { unfold absorb. rewrite FA. simpl snd. rewrite ECr. reflexivity. }
        destruct k.
        -- apply NXT; auto.
        -- apply NXT; auto. unfold decides. simpl. rewrite FA. reflexivity.
        -- cbv iota. assert (IG : is_good (count_ok v r) = negb (is_bad v)) by (destruct v as [|[|p|p]|q]; reflexivity).
           rewrite IG. destruct (is_bad v) eqn:EB; simpl negb; cbv iota.
           ++ apply NXT; auto. unfold decides. simpl. rewrite andb_false_r. reflexivity.
           ++ replace (decides false (Sufficient, r)) with true.
              2:{ unfold decides. simpl. rewrite ECr. reflexivity. }
              simpl fold_left. rewrite AB. do 2 eexists; reflexivity.
        -- apply NXT; auto.
      * assert (AB : failure (k, r) = false -> absorb v (k, r) = v).
        { intro FA. unfold absorb. rewrite FA. simpl snd. rewrite ECr. reflexivity. }
        assert (AF : failure (k, r) = true -> absorb v (k, r) = count_bad v r).
        { intro FA. unfold absorb. rewrite FA. unfold failure_code. simpl snd. rewrite IR. reflexivity. }
        destruct k.
        -- destruct (r =? 25) eqn:E25; cbv iota.
           ++ apply NXT; auto. symmetry. apply AB. unfold failure. simpl. rewrite ECr, E25. reflexivity.
           ++ apply NXT; auto. symmetry. apply AF. unfold failure. simpl. rewrite ECr, E25. reflexivity.
        -- destruct (r =? 25) eqn:E25; cbv iota.
           ++ apply NXT; auto; [symmetry; apply AB|unfold decides]; unfold failure; simpl; rewrite ECr, E25; reflexivity.
           ++ assert (FA : failure (Requisite, r) = true) by (unfold failure; simpl; rewrite ECr, E25; reflexivity).
              replace (decides (is_bad v) (Requisite, r)) with true
                by (unfold decides; rewrite FA; simpl; rewrite IR; reflexivity).
              simpl fold_left. rewrite AF by auto. do 2 eexists; reflexivity.
        -- cbv iota. apply NXT.
           ++ symmetry; apply AB; unfold failure; simpl; rewrite IR; reflexivity.
           ++ unfold decides. simpl. rewrite ECr. reflexivity.
        -- cbv iota. apply NXT; auto. symmetry; apply AB; unfold failure; simpl; rewrite IR; reflexivity.
Qed.

(** Folding gives the declared verdict. *)
Lemma fold_bad : forall c k, fold_left absorb c (Bad k) = Bad k.
Proof.
  induction c as [|a c IH]; intro k; simpl; auto. unfold absorb at 2.
  destruct (failure a); simpl; auto. destruct (content (snd a)); simpl; auto.
Qed.

Lemma failure_not_success : forall a, failure a = true -> failure_code (snd a) <> 0 /\ failure_code (snd a) <> 25.
Proof.
  intros [k r] H. unfold failure, failure_code in *. simpl in *.
  destruct (in_range r) eqn:E; [|split; discriminate].
  destruct k; try discriminate; apply andb_true_iff in H; destruct H as [H1 H2]; unfold content in H1;
    destruct (Z.eqb_spec r 0), (Z.eqb_spec r 25); subst; simpl in *; try discriminate; auto.
Qed.

Lemma fold_outcome_good : forall c g, content g = true ->
  outcome (fold_left absorb c (Good g)) =
  match find failure c with
  | Some a => failure_code (snd a)
  | None => match find (fun r => negb (r =? 0)) (g :: filter content (map snd c)) with Some r => r | None => 0 end
  end.
Proof.
  induction c as [|a c IH]; intros g Hg.
  - simpl. destruct (Z.eqb_spec g 0); simpl; auto.
  - cbn [fold_left find map filter]. unfold absorb at 2. destruct (failure a) eqn:EF.
    + simpl count_bad. rewrite fold_bad. destruct (failure_not_success _ EF) as [N1 N2].
      replace (failure_code (snd a) =? 25) with false by (symmetry; apply Z.eqb_neq; auto).
      simpl outcome. replace (failure_code (snd a) =? 0) with false by (symmetry; apply Z.eqb_neq; auto). reflexivity.
    + destruct (content (snd a)) eqn:EC; [|apply IH; auto].
      destruct (Z.eqb_spec g 0) as [->|NG].
      * simpl count_ok. rewrite IH by auto. reflexivity.
      * assert (E : count_ok (Good g) (snd a) = Good g) by (destruct g; [congruence|reflexivity|reflexivity]).
        rewrite E, IH by auto. destruct (find failure c); auto.
        apply Z.eqb_neq in NG. cbn [find]. rewrite NG. reflexivity.
Qed.

Lemma fold_outcome : forall c, outcome (fold_left absorb c Undecided) = verdict_of c.
Proof.
  induction c as [|a c IH]; [reflexivity|].
  unfold verdict_of. cbn [fold_left find map filter]. unfold absorb at 2. destruct (failure a) eqn:EF.
  - simpl count_bad. rewrite fold_bad. destruct (failure_not_success _ EF) as [N1 N2].
    replace (failure_code (snd a) =? 25) with false by (symmetry; apply Z.eqb_neq; auto).
    simpl outcome. replace (failure_code (snd a) =? 0) with false by (symmetry; apply Z.eqb_neq; auto). reflexivity.
  - destruct (content (snd a)) eqn:EC.
    + simpl count_ok. rewrite fold_outcome_good by auto. reflexivity.
    + rewrite IH. reflexivity.
Qed.

Lemma keyword_stack : forall l (s : wst W),
  l <> [] -> Forall (kw_line (length (cache s))) l ->
  ~ In PAM_INCOMPLETE (map snd (answers l (ww s))) ->
  exists s', dispatch_aux call false flags PLEASE_FREEZE (map snd l) None s =
             AFin (kw_result (answers l (ww s))) s'.
Proof.
  intros l s HNE HL HN.
  assert (HP : Forall (placed (length (cache s)) 0) (map (fun p => Mod (snd p)) l)).
  { apply Forall_forall. intros x Hx. apply in_map_iff in Hx. destruct Hx as ([k h] & <- & Hin).
    rewrite Forall_forall in HL. destruct (HL _ Hin) as (A & B & C & D & E). simpl in *.
    constructor. repeat split; auto. rewrite A. reflexivity. }
  pose proof (fresh_sim W call flags PLEASE_FREEZE _ _ s ltac:(discriminate) HP eq_refl) as HF.
  destruct (run_kw l _ Undecided (ww s) (cache s) HL eq_refl HN) as (w' & c' & E).
  unfold run_stack in HF. simpl fz in HF. rewrite E in HF. destruct HF as (s' & HR & _).
  assert (EF : flat (map (fun p : kw * handler => Mod (snd p)) l) = map snd l).
  { clear. induction l as [|[k h] l IH]; [reflexivity|]. change (h :: flat (map (fun p : kw * handler => Mod (snd p)) l) = h :: map snd l). rewrite IH. reflexivity. }
  rewrite EF in HR. exists s'.
  unfold dispatch_aux. destruct l as [|p l]; [congruence|]. cbn [map] in *.
  unfold run in HR. rewrite HR. f_equal. apply fold_outcome.
Qed.

End K.
