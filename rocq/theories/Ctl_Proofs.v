From Coq Require Import String Ascii List Arith ZArith Lia Bool.
From Verif Require Import Base Dispatch_Model Ctl_Model Ctl_Spec.
Import ListNotations.
Local Open Scope Z_scope.

(** ** Names *)

Lemma names_agree : token_returns = map lit value_names.
Proof. reflexivity. Qed.

(** No name of a list is a prefix of another one. *)
Fixpoint prefix_free_from (n : cstr) (l : list cstr) : bool :=
  match l with [] => true | m :: t => negb (is_prefix n m) && negb (is_prefix m n) && prefix_free_from n t end.
Fixpoint prefix_free (l : list cstr) : bool :=
  match l with [] => true | n :: t => prefix_free_from n t && prefix_free t end.

Lemma returns_prefix_free : prefix_free token_returns = true.
Proof. reflexivity. Qed.
Lemma actions_prefix_free : prefix_free token_actions = true.
Proof. reflexivity. Qed.

Lemma prefix_both : forall a b s, is_prefix a s = true -> is_prefix b s = true ->
  is_prefix a b = true \/ is_prefix b a = true.
Proof.
  induction a as [|x a IH]; intros b s H1 H2; simpl in *; auto.
  destruct s as [|y s]; [discriminate|]. apply andb_true_iff in H1. destruct H1 as [E H1].
  destruct b as [|z b]; auto. simpl in H2. apply andb_true_iff in H2. destruct H2 as [E2 H2].
  apply Ascii.eqb_eq in E. apply Ascii.eqb_eq in E2. subst. simpl. rewrite Ascii.eqb_refl. simpl. eauto.
Qed.

Lemma is_prefix_app : forall p s, is_prefix p (p ++ s) = true.
Proof. intros. apply is_prefix_spec. eauto. Qed.

Lemma skipn_app_len : forall A (a b : list A), skipn (length a) (a ++ b) = b.
Proof. induction a; simpl; auto. Qed.

Lemma find_name_in : forall names k0 k n s, prefix_free names = true -> nth_error names k = Some n ->
  find_name names k0 (n ++ s) = Some ((k0 + k)%nat, s).
Proof.
  induction names as [|m names IH]; intros k0 k n s HF HN; [destruct k; discriminate|].
  simpl in HF. apply andb_true_iff in HF. destruct HF as [HA HB].
  destruct k as [|k]; simpl in HN.
  - inversion HN; subst. simpl. rewrite is_prefix_app, skipn_app_len, Nat.add_0_r. reflexivity.
  - simpl. destruct (is_prefix m (n ++ s)) eqn:EP.
    + exfalso. clear IH HB. revert k HN. induction names as [|q names IHn]; intros k HN; [destruct k; discriminate|].
      simpl in HA. apply andb_true_iff in HA. destruct HA as [HA HC]. apply andb_true_iff in HA. destruct HA as [HA HD].
      destruct k; simpl in HN; eauto. inversion HN; subst.
      destruct (prefix_both m n (n ++ s) EP (is_prefix_app n s)) as [E|E]; rewrite E in *; discriminate.
    + rewrite (IH (S k0) k n s HB HN). f_equal. f_equal. lia.
Qed.

Lemma find_name_sound : forall names k0 s k rest, find_name names k0 s = Some (k, rest) ->
  exists n, (k0 <= k)%nat /\ nth_error names (k - k0) = Some n /\ s = n ++ rest.
Proof.
  induction names as [|m names IH]; intros k0 s k rest H; simpl in H; [discriminate|].
  destruct (is_prefix m s) eqn:EP.
  - inversion H; subst. apply is_prefix_spec in EP. destruct EP as [r ->]. exists m.
    rewrite skipn_app_len, Nat.sub_diag. auto.
  - destruct (IH _ _ _ _ H) as (n & A & B & C). exists n. repeat split; try lia; auto.
    destruct (k - k0)%nat as [|j] eqn:E; [lia|]. simpl. replace j with (k - S k0)%nat by lia. auto.
Qed.

(** ** Blanks *)

Lemma skip_space_spec : forall s, exists w, blank w /\ s = w ++ skip_space s /\
  match skip_space s with [] => True | c :: _ => isspace c = false end.
Proof.
  induction s as [|c s (w & B & E & H)]; simpl.
  - exists []. repeat split; auto. constructor.
  - destruct (isspace c) eqn:EC.
    + exists (c :: w). simpl. repeat split; auto; [constructor; auto|congruence].
    + exists []. repeat split; auto. constructor.
Qed.

Lemma skip_space_blank : forall w s, blank w -> skip_space (w ++ s) = skip_space s.
Proof. intros w s H. induction H as [|c w Hc H IH]; simpl; auto. rewrite Hc. auto. Qed.

Lemma skip_space_not : forall c s, isspace c = false -> skip_space (c :: s) = c :: s.
Proof. intros c s H. simpl. rewrite H. reflexivity. Qed.

(** ** Numbers *)

Lemma isdigit_val : forall c, isdigit c = true -> 0 <= digit_val c <= 9.
Proof.
  intros c H. unfold isdigit in H. apply andb_true_iff in H. destruct H as [A B].
  apply Nat.leb_le in A. apply Nat.leb_le in B. unfold digit_val. lia.
Qed.

Lemma decimal_from_mono : forall s v, Forall (fun c => isdigit c = true) s -> 0 <= v ->
  v <= fold_left (fun v c => 10 * v + digit_val c) s v.
Proof.
  intros s v H. revert v. induction H as [|c s Hc H IH]; intros v Hv; cbn [fold_left]; [lia|].
  pose proof (isdigit_val c Hc). assert (0 <= 10 * v + digit_val c) by lia. specialize (IH _ H1). lia.
Qed.

Lemma jump_number_spec : forall s v, 0 <= v <= INT_MAX ->
  exists d rest, s = d ++ rest /\ Forall (fun c => isdigit c = true) d /\
    match rest with [] => True | c :: _ => isdigit c = false end /\
    jump_number v s =
      (let n := fold_left (fun v c => 10 * v + digit_val c) d v in
       if n <=? INT_MAX then Some (n, rest) else None).
Proof.
  induction s as [|c s IH]; intros v Hv.
  - exists [], []. repeat split; auto. simpl. destruct (Z.leb_spec v INT_MAX); auto; lia.
  - destruct (isdigit c) eqn:EC.
    + pose proof (isdigit_val c EC) as HD. cbn [jump_number]. rewrite EC.
      assert (HM : INT_MAX / 10 = 214748364) by reflexivity.
      destruct (Z.ltb_spec (INT_MAX / 10) v) as [H|H];
        [|destruct (Z.ltb_spec (INT_MAX - digit_val c) (v * 10)) as [H2|H2]].
      3:{ destruct (IH (v * 10 + digit_val c)) as (d & rest & E & A & B & J); [unfold INT_MAX in *; lia|].
          exists (c :: d), rest. subst s. repeat split; auto.
          cbn [fold_left]. replace (10 * v + digit_val c) with (v * 10 + digit_val c) by lia. exact J. }
      1,2: assert (HBIG : INT_MAX < 10 * v + digit_val c) by (unfold INT_MAX in *; lia).
      1,2: clear IH; assert (HS : exists d rest, s = d ++ rest /\ Forall (fun c => isdigit c = true) d /\
              match rest with [] => True | c :: _ => isdigit c = false end).
      1,3: clear; induction s as [|x s (d & rest & E & A & B)]; [exists [], []; auto|];
           destruct (isdigit x) eqn:EX; [exists (x :: d), rest; subst; repeat split; auto|
                                         exists [], (x :: s); repeat split; auto].
      1,2: destruct HS as (d & rest & E & A & B); exists (c :: d), rest; subst s; repeat split; auto;
           cbn [fold_left]; pose proof (decimal_from_mono d (10 * v + digit_val c) A ltac:(lia));
           cbv zeta; match goal with |- context[?x <=? INT_MAX] => destruct (Z.leb_spec x INT_MAX) end; auto; lia.
    + exists [], (c :: s). cbn [app fold_left jump_number]. rewrite EC. repeat split; auto. cbv zeta.
      destruct (Z.leb_spec v INT_MAX); auto; lia.
Qed.

Lemma jump_number_exact : forall d rest, Forall (fun c => isdigit c = true) d ->
  match rest with [] => True | c :: _ => isdigit c = false end ->
  jump_number 0 (d ++ rest) = if decimal d <=? INT_MAX then Some (decimal d, rest) else None.
Proof.
  intros d rest HD HR. destruct (jump_number_spec (d ++ rest) 0) as (d' & rest' & E & A & B & J); [unfold INT_MAX; lia|].
  assert (d = d' /\ rest = rest') as [-> ->].
  { clear J. revert d' E A. induction HD as [|c d Hc HD IH]; intros d' E A.
    - destruct d' as [|x d']; simpl in *; auto. inversion A; subst. congruence.
    - destruct d' as [|x d']; simpl in E.
      + subst rest'. simpl in B. congruence.
      + inversion E; subst. inversion A; subst. destruct (IH d'); auto. subst; auto. }
  exact J.
Qed.

(** ** Actions *)

Lemma digit_no_action : forall c s, isdigit c = true -> find_name token_actions 0 (c :: s) = None.
Proof.
  intros c s H. unfold isdigit in H. apply andb_true_iff in H. destruct H as [A B].
  apply Nat.leb_le in A. apply Nat.leb_le in B.
  assert (X : forall x, (97 <= ord x)%nat -> Ascii.eqb x c = false).
  { intros x Hx. apply Ascii.eqb_neq. intros ->. lia. }
  cbn [find_name token_actions lit list_ascii_of_string is_prefix].
  rewrite !X by (vm_compute; lia). reflexivity.
Qed.

Lemma parse_action_complete : forall txt a rest, action_text txt a ->
  match rest with [] => True | c :: _ => isdigit c = false end ->
  parse_action (txt ++ rest) = Some (a, rest).
Proof.
  intros txt a rest H HR. unfold parse_action.
  inversion H; subst; clear H.
  1: rewrite (find_name_in token_actions 0 0 _ rest actions_prefix_free eq_refl); reflexivity.
  1: rewrite (find_name_in token_actions 0 1 _ rest actions_prefix_free eq_refl); reflexivity.
  1: rewrite (find_name_in token_actions 0 2 _ rest actions_prefix_free eq_refl); reflexivity.
  1: rewrite (find_name_in token_actions 0 3 _ rest actions_prefix_free eq_refl); reflexivity.
  1: rewrite (find_name_in token_actions 0 4 _ rest actions_prefix_free eq_refl); reflexivity.
  1: rewrite (find_name_in token_actions 0 5 _ rest actions_prefix_free eq_refl); reflexivity.
  destruct txt as [|c d]; [congruence|].
  assert (HD : isdigit c = true) by (match goal with HF : Forall _ (c :: d) |- _ => inversion HF; auto end).
  cbn [app]. rewrite digit_no_action by auto. rewrite HD.
  change (c :: d ++ rest) with ((c :: d) ++ rest). rewrite jump_number_exact by auto.
  destruct (Z.leb_spec (decimal (c :: d)) INT_MAX); [|lia].
  destruct (Z.eqb_spec (decimal (c :: d)) 0); auto; lia.
Qed.

Lemma parse_action_sound : forall s a rest, parse_action s = Some (a, rest) ->
  exists txt, s = txt ++ rest /\ action_text txt a /\ txt <> [].
Proof.
  intros s a rest H. unfold parse_action in H.
  destruct (find_name token_actions 0 s) as [[k r]|] eqn:EF.
  - inversion H; subst. destruct (find_name_sound _ _ _ _ _ EF) as (n & _ & HN & ->). rewrite Nat.sub_0_r in HN.
    exists n. split; auto.
    do 6 (destruct k as [|k]; [inversion HN; subst; split; [constructor|discriminate]|]).
    destruct k; discriminate.
  - destruct s as [|c s]; [discriminate|]. destruct (isdigit c) eqn:EC; [|discriminate].
    destruct (jump_number 0 (c :: s)) as [[v r]|] eqn:EJ; [|discriminate].
    destruct (Z.eqb_spec v 0); [discriminate|]. inversion H; subst.
    destruct (jump_number_spec (c :: s) 0) as (d & rest' & E & A & B & J); [unfold INT_MAX; lia|].
    rewrite EJ in J. cbv zeta in J. fold (decimal d) in J. destruct (Z.leb_spec (decimal d) INT_MAX); [|discriminate].
    inversion J; subst. exists d. split; auto.
    assert (d <> []) by (intros ->; simpl in E; destruct rest'; [discriminate|]; inversion E; subst; congruence).
    split; auto. constructor; auto. pose proof (decimal_from_mono d 0 A ltac:(lia)). unfold decimal in *. lia.
Qed.

(** ** The table *)

Definition apply_entry (tab : list Z) (e : nat * Z) : list Z :=
  match set_entry tab (fst e) (snd e) with Some t => t | None => tab end.

Lemma set_entry_len : forall tab k a t, set_entry tab k a = Some t -> length t = length tab.
Proof.
  intros tab k a t H. unfold set_entry in H. destruct (k =? 32)%nat.
  - inversion H. unfold set_default. apply map_length.
  - eapply upd_length; eauto.
Qed.

Lemma set_entry_some : forall tab k a, length tab = 32%nat -> (k <= 32)%nat -> set_entry tab k a = Some (apply_entry tab (k, a)).
Proof.
  intros tab k a HL HK. unfold apply_entry. simpl. destruct (set_entry tab k a) eqn:E; auto.
  exfalso. unfold set_entry in E. destruct (Nat.eqb_spec k 32); [discriminate|].
  destruct (upd_some Z tab k a) as [l' E']; [lia|]. congruence.
Qed.

Lemma value_names_len : length value_names = 33%nat.
Proof. reflexivity. Qed.

Lemma name_head : forall k name, nth_error value_names k = Some name ->
  exists c s, lit name = c :: s /\ isspace c = false /\ isdigit c = false.
Proof.
  intros k name H.
  do 33 (destruct k as [|k]; [inversion H; subst; do 2 eexists; repeat split; reflexivity|]).
  destruct k; discriminate.
Qed.

Lemma action_head : forall txt a, action_text txt a -> exists c s, txt = c :: s /\ isspace c = false.
Proof.
  intros txt a H. inversion H; subst; try (do 2 eexists; split; reflexivity).
  destruct txt as [|c s]; [congruence|]. do 2 eexists. split; eauto.
  assert (HD : isdigit c = true) by (match goal with HF : Forall _ (c :: s) |- _ => inversion HF; auto end).
  unfold isdigit in HD. apply andb_true_iff in HD. destruct HD as [A B]. apply Nat.leb_le in A. apply Nat.leb_le in B.
  unfold isspace. replace (ord c =? 32)%nat with false by (symmetry; apply Nat.eqb_neq; lia).
  replace (ord c <=? 13)%nat with false by (symmetry; apply Nat.leb_gt; lia). rewrite andb_false_r. reflexivity.
Qed.

Lemma ctl_not_digit : forall s es, ctl s es -> match s with [] => True | c :: _ => isdigit c = false end.
Proof.
  intros s es H.
  assert (SP : forall c, isspace c = true -> isdigit c = false).
  { intros c HS. unfold isspace in HS. unfold isdigit. apply orb_true_iff in HS. destruct HS as [E|E].
    - apply Nat.eqb_eq in E. rewrite E. reflexivity.
    - apply andb_true_iff in E. destruct E as [A B]. apply Nat.leb_le in A. apply Nat.leb_le in B.
      replace (48 <=? ord c)%nat with false by (symmetry; apply Nat.leb_gt; lia). reflexivity. }
  destruct H.
  - destruct w; auto. inversion H; auto.
  - destruct w1 as [|x w1]; simpl.
    + destruct (name_head _ _ H0) as (c & s & -> & A & B). auto.
    + inversion H; auto.
Qed.

Lemma control_complete : forall s es, ctl s es -> forall fuel tab, (length s < fuel)%nat -> length tab = 32%nat ->
  control_loop fuel tab s = Ok (Some (fold_left apply_entry es tab)).
Proof.
  intros s es H. induction H as [w HW|w1 name k w2 w3 txt a rest es H1 HN H2 H3 HA HC IH]; intros fuel tab HF HL.
  - destruct fuel as [|fuel]; [lia|]. cbn [control_loop].
    replace (skip_space w) with (@nil ascii); auto.
    rewrite <- (app_nil_r w), skip_space_blank by auto. reflexivity.
  - destruct fuel as [|fuel]; [lia|]. cbn [control_loop].
    destruct (name_head _ _ HN) as (c & n & EN & NS & ND).
    destruct (action_head _ _ HA) as (ca & na & EA & AS).
    rewrite skip_space_blank by auto. rewrite EN. cbn [app]. rewrite skip_space_not by auto.
    rewrite app_comm_cons, <- EN.
    assert (HK : nth_error token_returns k = Some (lit name)).
    { rewrite names_agree. rewrite nth_error_map, HN. reflexivity. }
    rewrite (find_name_in _ 0 k _ _ returns_prefix_free HK). cbn [Nat.add].
    assert (HSK : skip_space (w2 ++ c_eq :: w3 ++ txt ++ rest) = c_eq :: w3 ++ txt ++ rest)
      by (rewrite skip_space_blank by auto; reflexivity).
    destruct (w2 ++ c_eq :: w3 ++ txt ++ rest) as [|y ys] eqn:EW; [destruct w2; discriminate|].
    rewrite HSK. rewrite Ascii.eqb_refl. rewrite skip_space_blank by auto.
    rewrite EA. cbn [app]. rewrite skip_space_not by auto. rewrite app_comm_cons, <- EA.
    rewrite (parse_action_complete txt a rest HA (ctl_not_digit _ _ HC)).
    assert (KL : (k <= 32)%nat) by (pose proof (nth_error_Some value_names k); rewrite HN, value_names_len in H; lia || (assert (k < 33)%nat by (apply H; discriminate); lia)).
    rewrite set_entry_some by auto. cbn [fold_left]. apply IH.
    + rewrite EN in HF. repeat first [rewrite app_length in HF | progress cbn [length app] in HF]. lia.
    + unfold apply_entry. simpl. rewrite (set_entry_some tab k a HL KL). unfold apply_entry. simpl.
      rewrite (set_entry_some tab k a HL KL). erewrite set_entry_len by (apply (set_entry_some tab k a HL KL)). auto.
Qed.

Lemma control_sound : forall fuel s tab, (length s < fuel)%nat -> length tab = 32%nat ->
  (exists es, ctl s es /\ control_loop fuel tab s = Ok (Some (fold_left apply_entry es tab))) \/
  (control_loop fuel tab s = Ok None /\ forall es, ~ ctl s es).
Proof.
  intros fuel s tab HF HL.
  assert (X : (exists es, ctl s es) \/ control_loop fuel tab s = Ok None).
  { revert s tab HF HL. induction fuel as [|fuel IH]; intros s tab HF HL; [lia|].
    cbn [control_loop].
    destruct (skip_space_spec s) as (w1 & B1 & E1 & S1).
    destruct (skip_space s) as [|c tok] eqn:ES.
    - left. exists []. rewrite E1, app_nil_r. constructor; auto.
    - destruct (find_name token_returns 0 (c :: tok)) as [[k r]|] eqn:EF; [|right; reflexivity].
      destruct (find_name_sound _ _ _ _ _ EF) as (n & _ & HN & EN). rewrite Nat.sub_0_r in HN.
      rewrite names_agree, nth_error_map in HN. destruct (nth_error value_names k) as [name|] eqn:EK; [|discriminate].
      simpl in HN. inversion HN; subst n. clear HN.
      destruct r as [|x r]; [right; reflexivity|].
      destruct (skip_space_spec (x :: r)) as (w2 & B2 & E2 & S2).
      destruct (skip_space (x :: r)) as [|c2 t2] eqn:ES2; [right; reflexivity|].
      destruct (Ascii.eqb_spec c2 c_eq) as [->|]; [|right; reflexivity].
      destruct (skip_space_spec t2) as (w3 & B3 & E3 & S3).
      destruct (skip_space t2) as [|c3 t3] eqn:ES3; [right; reflexivity|].
      destruct (parse_action (c3 :: t3)) as [[act rest]|] eqn:EA; [|right; reflexivity].
      destruct (parse_action_sound _ _ _ EA) as (txt & ET & HT & HTN).
      assert (KL : (k <= 32)%nat).
      { assert (k < 33)%nat by (rewrite <- value_names_len; apply nth_error_Some; rewrite EK; discriminate). lia. }
      pose proof (set_entry_some tab k act HL KL) as SE. rewrite SE.
      assert (ESS : s = w1 ++ lit name ++ w2 ++ [c_eq] ++ w3 ++ txt ++ rest).
      { rewrite E1, EN, E2, E3, ET. simpl. reflexivity. }
      destruct (IH rest (apply_entry tab (k, act))) as [(es & HC)|HE].
      + rewrite ESS in HF. destruct txt; [congruence|].
        repeat first [rewrite app_length in HF | progress cbn [length app] in HF]. lia.
      + rewrite <- HL. eapply set_entry_len; eauto.
      + left. exists ((k, act) :: es). rewrite ESS. econstructor; eauto.
      + right. exact HE. }
  destruct X as [(es & HC)|HE].
  - left. exists es. split; auto. apply control_complete; auto.
  - right. split; auto. intros es HC. rewrite (control_complete s es HC fuel tab HF HL) in HE. discriminate.
Qed.

(** ** The table against the reading of the entries *)

Lemma action_not_undef : forall s es, ctl s es -> forall k a, In (k, a) es -> a <> -6 /\ (k <= 32)%nat.
Proof.
  intros s es H. induction H as [w HW|w1 name k w2 w3 txt a rest es H1 HN H2 H3 HA HC IH]; intros k0 a0 HI; [destruct HI|].
  destruct HI as [E|HI]; [|eauto]. inversion E; subst. split.
  - inversion HA; subst; try lia.
  - assert (k0 < 33)%nat by (rewrite <- value_names_len; apply nth_error_Some; rewrite HN; discriminate). lia.
Qed.

Definition pre_table (es : list (nat * Z)) (v : nat) : Z :=
  match find (fun e => Nat.eqb (fst e) v) (rev es) with
  | Some (_, a) => a
  | None => match find (fun e => Nat.eqb (fst e) 32) es with Some (_, a) => a | None => ACT_UNDEF end
  end.

Lemma find_app : forall A (f : A -> bool) a b, find f (a ++ b) = match find f a with Some x => Some x | None => find f b end.
Proof. induction a as [|x a IH]; intros b; simpl; auto. destruct (f x); auto. Qed.

Lemma fold_entries : forall es, (forall k a, In (k, a) es -> a <> -6 /\ (k <= 32)%nat) ->
  length (fold_left apply_entry es (all_actions ACT_UNDEF)) = 32%nat /\
  forall v, (v < 32)%nat -> nth_error (fold_left apply_entry es (all_actions ACT_UNDEF)) v = Some (pre_table es v).
Proof.
  intros es. induction es as [|[k a] es IH] using rev_ind; intros HA.
  - split; auto. intros v Hv. cbn [fold_left]. unfold pre_table. cbn [rev find]. unfold all_actions.
    apply nth_error_repeat. auto.
  - destruct IH as [IL IN]. { intros k0 a0 H0. apply (HA k0 a0). apply in_or_app; auto. }
    destruct (HA k a) as [Ha Hk]. { apply in_or_app; right; left; auto. }
    rewrite fold_left_app. cbn [fold_left].
    set (tab := fold_left apply_entry es (all_actions (-6))) in *.
    pose proof (set_entry_some tab k a IL Hk) as SE. split; [rewrite (set_entry_len _ _ _ _ SE); auto|].
    intros v Hv. unfold pre_table. rewrite rev_app_distr. cbn [rev app find fst].
    unfold set_entry in SE. destruct (Nat.eqb_spec k 32) as [->|NK].
    + assert (HE : apply_entry tab (32%nat, a) = set_default tab a) by congruence. rewrite HE. replace (32 =? v)%nat with false by (symmetry; apply Nat.eqb_neq; lia).
      unfold set_default. rewrite nth_error_map, IN by auto. cbn [option_map]. f_equal. unfold pre_table.
      rewrite find_app. cbn [find fst]. rewrite Nat.eqb_refl.
      assert (HX : forall l x, (forall k a, In (k, a) l -> a <> -6 /\ (k <= 32)%nat) -> forall f, find f l = Some x -> snd x <> -6).
      { intros l x Hl f Hf. apply find_some in Hf. destruct Hf as [Hf _]. destruct x as [k0 a0]. apply (Hl k0 a0 Hf). }
      assert (HES : forall k a, In (k, a) es -> a <> -6 /\ (k <= 32)%nat) by (intros; apply (HA k a0); apply in_or_app; auto).
      destruct (find (fun e => (fst e =? v)%nat) (rev es)) as [[k1 a1]|] eqn:E1.
      * assert (a1 <> -6). { apply (HX (rev es) (k1, a1)) with (2 := E1). intros k0 a0 H0. apply HES. apply in_rev. auto. }
        destruct (Z.eqb_spec a1 (-6)); congruence.
      * destruct (find (fun e => (fst e =? 32)%nat) es) as [[k2 a2]|] eqn:E2.
        -- pose proof (HX es (k2, a2) HES _ E2) as N. simpl in N. destruct (Z.eqb_spec a2 (-6)); congruence.
        -- reflexivity.
    + destruct (Nat.eqb_spec k v) as [->|NV].
      * eapply upd_same; eauto.
      * rewrite (upd_other _ _ _ _ _ _ SE) by auto. rewrite IN by auto. unfold pre_table. f_equal.
        destruct (find (fun e => (fst e =? v)%nat) (rev es)) as [[? ?]|]; auto.
        rewrite find_app. cbn [find fst]. replace (k =? 32)%nat with false by (symmetry; apply Nat.eqb_neq; auto).
        destruct (find (fun e => (fst e =? 32)%nat) es) as [[? ?]|]; auto.
Qed.

Lemma chosen_pre : forall es v, (forall k a, In (k, a) es -> a <> -6 /\ (k <= 32)%nat) ->
  (if pre_table es v =? -6 then -3 else pre_table es v) = chosen es v.
Proof.
  intros es v HES. unfold pre_table, chosen.
  destruct (find (fun e => (fst e =? v)%nat) (rev es)) as [[k1 a1]|] eqn:E1.
  - apply find_some in E1. destruct E1 as [E1 _]. apply in_rev in E1. destruct (HES _ _ E1).
    destruct (Z.eqb_spec a1 (-6)); congruence.
  - destruct (find (fun e => (fst e =? 32)%nat) es) as [[k2 a2]|] eqn:E2.
    + apply find_some in E2. destruct E2 as [E2 _]. destruct (HES _ _ E2). destruct (Z.eqb_spec a2 (-6)); congruence.
    + reflexivity.
Qed.

Lemma control_of_other : forall tok,
  strcaseeq (lit "required") tok = false -> strcaseeq (lit "requisite") tok = false ->
  strcaseeq (lit "optional") tok = false -> strcaseeq (lit "sufficient") tok = false ->
  strcaseeq (lit "include") tok = false -> strcaseeq (lit "substack") tok = false ->
  (exists es tab, ctl tok es /\ control_of tok = Ok (CtlTable tab) /\ length tab = 32%nat /\
     forall v, (v < 32)%nat -> nth_error tab v = Some (chosen es v)) \/
  ((forall es, ~ ctl tok es) /\ control_of tok = Ok (CtlTable (all_actions ACT_BAD))).
Proof.
  intros tok A B C D E F. unfold control_of. rewrite A, B, C, D, E, F. unfold parse_control.
  destruct (control_sound (S (length tok)) tok (all_actions ACT_UNDEF)) as [(es & HC & EQ)|[EQ HN]]; [lia|reflexivity| |]; rewrite EQ.
  - left. pose proof (action_not_undef _ _ HC) as HES. destruct (fold_entries es HES) as [FL FN].
    exists es. eexists. split; auto. split; [reflexivity|]. unfold set_default. rewrite map_length. split; auto.
    intros v Hv. rewrite nth_error_map, FN by auto. cbn [option_map]. f_equal. apply chosen_pre; auto.
  - right. split; auto.
Qed.
