(** C10, C11: what a control field means. *)
From Coq Require Import String Ascii List Arith ZArith Lia Bool.
From Verif Require Import Base Dispatch_Model Dispatch_Keywords Ctl_Model Ctl_Spec Ctl_Proofs.
Import ListNotations.
Local Open Scope Z_scope.

(** The words that are not read as a bracket expression. *)
Definition keywords : list string := ["required"; "requisite"; "optional"; "sufficient"; "include"; "substack"]%string.
Definition spelled (k : string) (tok : cstr) : Prop := map tolower tok = lit k.

Lemma strcaseeq_spelled : forall k tok, map tolower (lit k) = lit k -> (strcaseeq (lit k) tok = true <-> spelled k tok).
Proof.
  intros k tok H. unfold strcaseeq, spelled. rewrite H, streq_eq. split; intro X; symmetry; exact X.
Qed.

Lemma ctl_has_eq : forall s es, ctl s es -> blank s \/ In c_eq s.
Proof.
  intros s es H. destruct H; [left; auto|right].
  apply in_or_app; right. apply in_or_app; right. apply in_or_app; right. left; reflexivity.
Qed.

Lemma tolower_eq : tolower c_eq = c_eq.
Proof. reflexivity. Qed.

Lemma blank_lower : forall c, isspace c = true -> tolower c = c.
Proof.
  intros c H. unfold tolower. destruct (isupper c) eqn:E; auto. exfalso.
  unfold isspace in H. unfold isupper in E. apply andb_true_iff in E. destruct E as [E1 E2].
  apply Nat.leb_le in E1. apply orb_true_iff in H. destruct H as [H|H].
  - apply Nat.eqb_eq in H. lia.
  - apply andb_true_iff in H. destruct H as [_ H]. apply Nat.leb_le in H. lia.
Qed.

Lemma spelled_not_ctl : forall k tok es, In k keywords -> spelled k tok -> ~ ctl tok es.
Proof.
  intros k tok es HK HS HC. unfold spelled in HS. destruct (ctl_has_eq _ _ HC) as [HB|HE].
  - destruct tok as [|c t].
    + cbn [map] in HS. repeat (destruct HK as [<-|HK]; [discriminate HS|]). destruct HK.
    + pose proof (Forall_inv HB) as HI. cbv beta in HI. cbn [map] in HS. rewrite (blank_lower _ HI) in HS.
      repeat (destruct HK as [<-|HK]; [injection HS as E _; rewrite E in HI; discriminate HI|]). destruct HK.
  - apply (in_map tolower) in HE. rewrite tolower_eq, HS in HE. clear HS HC.
    repeat (destruct HK as [<-|HK]; [repeat (destruct HE as [HE|HE]; [discriminate HE|]); destruct HE|]). destruct HK.
Qed.

Lemma not_spelled : forall k tok, map tolower (lit k) = lit k -> ~ spelled k tok -> strcaseeq (lit k) tok = false.
Proof.
  intros k tok H N. destruct (strcaseeq (lit k) tok) eqn:E; auto. apply strcaseeq_spelled in E; auto. contradiction.
Qed.

Lemma control_of_unspelled : forall tok, (forall k, In k keywords -> ~ spelled k tok) ->
  (exists es tab, ctl tok es /\ control_of tok = Ok (CtlTable tab) /\ length tab = 32%nat /\
     forall v, (v < 32)%nat -> nth_error tab v = Some (chosen es v)) \/
  ((forall es, ~ ctl tok es) /\ control_of tok = Ok (CtlTable (all_actions ACT_BAD))).
Proof.
  intros tok H. apply control_of_other; apply not_spelled; try reflexivity; apply H; simpl; auto 7.
Qed.

(** The list of entries a string stands for is unique as far as the table goes. *)
Theorem control_list_meaning : forall tok es, ctl tok es ->
  exists tab, control_of tok = Ok (CtlTable tab) /\ length tab = 32%nat /\
    forall v, (v < 32)%nat -> nth_error tab v = Some (chosen es v).
Proof.
  intros tok es HC. destruct (control_of_unspelled tok) as [(es' & tab & HC' & E & L & N)|[HN _]].
  - intros k HK HS. exact (spelled_not_ctl k tok es HK HS HC).
  - exists tab. split; [exact E|]. split; [exact L|].
    assert (EQ : fold_left apply_entry es (all_actions ACT_UNDEF) = fold_left apply_entry es' (all_actions ACT_UNDEF)).
    { pose proof (control_complete _ _ HC (S (length tok)) (all_actions ACT_UNDEF)) as A.
      pose proof (control_complete _ _ HC' (S (length tok)) (all_actions ACT_UNDEF)) as A'.
      rewrite A in A' by (try reflexivity; lia). assert (X : forall x y : list Z, Ok (Some x) = Ok (Some y) -> x = y) by congruence.
      apply X. apply A'; [lia|reflexivity]. }
    intros v Hv. rewrite (N v Hv). f_equal.
    pose proof (action_not_undef _ _ HC) as H1. pose proof (action_not_undef _ _ HC') as H2.
    pose proof (proj2 (fold_entries es H1) v Hv) as X. pose proof (proj2 (fold_entries es' H2) v Hv) as Y.
    rewrite EQ, Y in X. injection X as X. rewrite <- (chosen_pre es' v H2), <- (chosen_pre es v H1), X; reflexivity.
  - exfalso. exact (HN es HC).
Qed.

Theorem control_garbage_all_bad : forall tok, (forall k, In k keywords -> ~ spelled k tok) -> (forall es, ~ ctl tok es) ->
  control_of tok = Ok (CtlTable (repeat (-3) 32)).
Proof.
  intros tok HK HN. destruct (control_of_unspelled tok HK) as [(es & tab & HC & _)|[_ E]]; [exfalso; exact (HN es HC)|exact E].
Qed.

(** A number after "value=" is a jump exactly when it is between 1 and INT_MAX. *)
Theorem jump_numbers_exact : forall k name s, nth_error value_names k = Some name -> (k < 32)%nat ->
  s <> [] -> Forall (fun c => isdigit c = true) s ->
  exists tab, control_of (lit name ++ lit "=" ++ s) = Ok (CtlTable tab) /\
    nth_error tab k = Some (if (1 <=? decimal s) && (decimal s <=? INT_MAX) then decimal s else -3).
Proof.
  intros k name s HN HK HS HD. destruct ((1 <=? decimal s) && (decimal s <=? INT_MAX)) eqn:ER.
  - apply andb_true_iff in ER. destruct ER as [R1 R2]. apply Z.leb_le in R1. apply Z.leb_le in R2.
    assert (HC : ctl (lit name ++ lit "=" ++ s) [(k, decimal s)]).
    { replace (lit name ++ lit "=" ++ s)%list with ([] ++ lit name ++ [] ++ [c_eq] ++ [] ++ s ++ [])%list by (rewrite app_nil_r; reflexivity).
      eapply ctl_entry; eauto; try (constructor; fail); [|constructor; constructor]. apply at_jump; auto. }
    destruct (control_list_meaning _ _ HC) as (tab & E & _ & N). exists tab. split; [exact E|]. rewrite (N k HK).
    unfold chosen. cbn [rev app find fst]. rewrite Nat.eqb_refl. reflexivity.
  - set (tok := lit name ++ lit "=" ++ s).
    assert (HL : control_loop (S (length tok)) (all_actions ACT_UNDEF) tok = Ok None).
    { cbn [control_loop]. destruct (name_head _ _ HN) as (c & n & EN & NS & ND).
      assert (ET : skip_space tok = tok) by (unfold tok; rewrite EN; apply skip_space_not; exact NS). rewrite ET.
      assert (EF : find_name token_returns 0 tok = Some (k, lit "=" ++ s)).
      { unfold tok. apply (find_name_in token_returns 0 k); [apply returns_prefix_free|].
        change token_returns with (map lit value_names). rewrite nth_error_map, HN. reflexivity. }
      assert (ETC : tok = c :: n ++ lit "=" ++ s) by (unfold tok; rewrite EN; reflexivity).
      rewrite ETC in EF |- *. rewrite EF. change (lit "=" ++ s) with (c_eq :: s). cbn [skip_space].
      change (isspace c_eq) with false. cbv iota. rewrite Ascii.eqb_refl.
      destruct s as [|d t]; [congruence|]. pose proof (Forall_inv HD) as Hd. cbv beta in Hd.
      assert (NSd : isspace d = false).
      { destruct (isspace d) eqn:E; auto. exfalso. unfold isspace in E. unfold isdigit in Hd.
        apply andb_true_iff in Hd. destruct Hd as [H1 H2]. apply Nat.leb_le in H1. apply orb_true_iff in E. destruct E as [E|E].
        - apply Nat.eqb_eq in E. lia.
        - apply andb_true_iff in E. destruct E as [_ E]. apply Nat.leb_le in E. lia. }
      rewrite skip_space_not by exact NSd. unfold parse_action.
      assert (EA : find_name token_actions 0 (d :: t) = None).
      { destruct (find_name token_actions 0 (d :: t)) as [[j r]|] eqn:EA; auto. exfalso.
        destruct (find_name_sound _ _ _ _ _ EA) as (a & _ & HA & EQ). rewrite Nat.sub_0_r in HA.
        do 6 (destruct j as [|j]; [injection HA as <-; injection EQ as -> _; discriminate Hd|]). destruct j; discriminate. }
      rewrite EA, Hd. pose proof (jump_number_exact (d :: t) [] HD I) as J. rewrite app_nil_r in J. rewrite J.
      destruct (Z.leb_spec (decimal (d :: t)) INT_MAX) as [L|L]; [|reflexivity].
      destruct (Z.eqb_spec (decimal (d :: t)) 0) as [Z0|Z0]; [reflexivity|]. exfalso.
      assert (0 <= decimal (d :: t)) by (unfold decimal; apply (decimal_from_mono (d :: t) 0 HD); lia).
      apply andb_false_iff in ER. destruct ER as [ER|ER]; [apply Z.leb_gt in ER; lia|discriminate]. }
    assert (HNC : forall es, ~ ctl tok es).
    { intros es HC. rewrite (control_complete _ _ HC) in HL; [discriminate|lia|reflexivity]. }
    assert (HNK : forall w, In w keywords -> ~ spelled w tok).
    { intros w HW HSp. assert (HE : In c_eq tok) by (unfold tok; apply in_or_app; right; left; reflexivity).
      unfold spelled in HSp. apply (in_map tolower) in HE. rewrite tolower_eq, HSp in HE.
      repeat (destruct HW as [<-|HW]; [repeat (destruct HE as [HE|HE]; [discriminate HE|]); destruct HE|]). destruct HW. }
    exists (repeat (-3) 32). split; [apply control_garbage_all_bad; auto|]. apply nth_error_repeat. exact HK.
Qed.

(** C11.  The bracket forms of pam.conf(5), for any mixture of upper and lower case. *)
Definition documented (k : kw) : cstr :=
  match k with
  | Required => lit "success=ok new_authtok_reqd=ok ignore=ignore default=bad"
  | Requisite => lit "success=ok new_authtok_reqd=ok ignore=ignore default=die"
  | Sufficient => lit "success=done new_authtok_reqd=done default=ignore"
  | Optional => lit "success=ok new_authtok_reqd=ok default=ignore"
  end.
Definition kw_name (k : kw) : string :=
  match k with Required => "required" | Requisite => "requisite" | Sufficient => "sufficient" | Optional => "optional" end.

Theorem keywords_are_their_bracket_forms : forall k tok, spelled (kw_name k) tok ->
  control_of tok = control_of (documented k) /\ control_of tok = Ok (CtlTable (kw_table k)).
Proof.
  intros k tok HS.
  assert (E : control_of tok = control_of (lit (kw_name k))).
  { unfold spelled in HS. unfold control_of, strcaseeq. rewrite HS.
    destruct k; vm_compute; reflexivity. }
  rewrite E. destruct k; split; vm_compute; reflexivity.
Qed.

Theorem include_words : forall tok,
  (spelled "include" tok -> control_of tok = Ok CtlInclude) /\ (spelled "substack" tok -> control_of tok = Ok CtlSubstack).
Proof.
  intros tok. split; intros HS; unfold spelled in HS; unfold control_of, strcaseeq; rewrite HS; vm_compute; reflexivity.
Qed.

Lemma legal_actions : forall tab, forallb (fun a => (-5 <=? a) && (a <=? INT_MAX)) tab = true -> Forall (fun a => -5 <= a <= INT_MAX) tab.
Proof.
  intros tab H. apply Forall_forall. intros a HA. rewrite forallb_forall in H. specialize (H a HA).
  apply andb_true_iff in H. destruct H as [H1 H2]. apply Z.leb_le in H1. apply Z.leb_le in H2. lia.
Qed.

(** Every control field has a meaning: no undefined behaviour, and tables are complete with legal actions. *)
Theorem control_total : forall tok, exists c, control_of tok = Ok c /\
    match c with CtlTable tab => length tab = 32%nat /\ Forall (fun a => -5 <= a <= INT_MAX) tab | _ => True end.
Proof.
  intros tok.
  assert (D : (exists k, In k keywords /\ spelled k tok) \/ (forall k, In k keywords -> ~ spelled k tok)).
  { clear. generalize keywords. induction l as [|k l IH]; [right; intros k []|].
    destruct (list_eq_dec ascii_dec (map tolower tok) (lit k)) as [E|E]; [left; exists k; split; [left; auto|exact E]|].
    destruct IH as [(k' & A & B)|N]; [left; exists k'; split; [right; auto|auto]|].
    right. intros k' [<-|H]; auto. }
  destruct D as [(k & HK & HS)|N].
  - destruct HK as [<-|[<-|[<-|[<-|[<-|[<-|[]]]]]]].
    1: rewrite (proj2 (keywords_are_their_bracket_forms Required tok HS)).
    2: rewrite (proj2 (keywords_are_their_bracket_forms Requisite tok HS)).
    3: rewrite (proj2 (keywords_are_their_bracket_forms Optional tok HS)).
    4: rewrite (proj2 (keywords_are_their_bracket_forms Sufficient tok HS)).
    5: rewrite (proj1 (include_words tok) HS).
    6: rewrite (proj2 (include_words tok) HS).
    1-4: eexists; split; [reflexivity|]; split; [reflexivity|]; apply legal_actions; vm_compute; reflexivity.
    1-2: eexists; split; [reflexivity|exact I].
  - destruct (control_of_unspelled tok N) as [(es & tab & HC & E & L & NT)|[_ E]]; rewrite E; eexists; (split; [reflexivity|]).
    + split; [exact L|]. apply Forall_forall. intros a HA. apply In_nth_error in HA. destruct HA as [v HV].
      assert (v < 32)%nat by (rewrite <- L; apply nth_error_Some; rewrite HV; discriminate).
      rewrite NT in HV by auto. injection HV as <-.
      assert (HR : forall k a, In (k, a) es -> -5 <= a <= INT_MAX).
      { clear -HC. induction HC as [w HW|w1 name k w2 w3 txt a rest es H1 HN H2 H3 HA HC IH]; intros k0 a0 HI; [destruct HI|].
        destruct HI as [EQ|HI]; [|eauto]. injection EQ as <- <-. inversion HA; subst; unfold INT_MAX in *; lia. }
      unfold chosen. destruct (find (fun e => (fst e =? v)%nat) (rev es)) as [[k1 a1]|] eqn:F1.
      * apply find_some in F1. destruct F1 as [F1 _]. apply in_rev in F1. eauto.
      * destruct (find (fun e => (fst e =? 32)%nat) es) as [[k1 a1]|] eqn:F2; [|unfold INT_MAX; lia].
        apply find_some in F2. destruct F2 as [F2 _]. eauto.
    + split; [reflexivity|]. unfold all_actions. apply Forall_forall. intros a HA. apply repeat_spec in HA. subst a.
      unfold INT_MAX. lia.
Qed.

(** ** Examples *)

(** Two entries for one value, a default in the middle, a jump. *)
Example ex_control : exists tab,
  control_of (lit "success=2 user_unknown=ignore default=die success = ok auth_err=7") = Ok (CtlTable tab) /\
    map (fun v => nth_error tab v) [0; 10; 7; 6]%nat = [Some (-1); Some 0; Some 7; Some (-4)].
Proof. eexists. split; vm_compute; reflexivity. Qed.

Example ex_ctl : ctl (lit " success = 2 ") [(0%nat, 2)].
Proof.
  change (lit " success = 2 ") with ([" "%char] ++ lit "success" ++ [" "%char] ++ [c_eq] ++ [" "%char] ++ lit "2" ++ [" "%char]).
  change 2 with (decimal (lit "2")).
  eapply ctl_entry; try (repeat constructor; fail); try reflexivity.
  apply at_jump; [discriminate|repeat constructor|vm_compute; split; discriminate].
Qed.

(** A number too big by one spoils the whole field; the largest does not. *)
Example ex_jump_limit :
  control_of (lit "success=2147483648 default=ok") = Ok (CtlTable (repeat (-3) 32)) /\
    exists tab, control_of (lit "success=2147483647 default=ok") = Ok (CtlTable tab) /\ nth_error tab 0 = Some 2147483647.
Proof. split; [vm_compute; reflexivity|]. eexists. split; vm_compute; reflexivity. Qed.

(** Text before an unknown word does not count. *)
Example ex_garbage : control_of (lit "success=ok oops") = Ok (CtlTable (repeat (-3) 32)).
Proof. vm_compute; reflexivity. Qed.

Example ex_spelled : spelled (kw_name Sufficient) (lit "SuffiCIENT").
Proof. reflexivity. Qed.

Print Assumptions control_list_meaning.
Print Assumptions control_garbage_all_bad.
Print Assumptions jump_numbers_exact.
Print Assumptions keywords_are_their_bracket_forms.
Print Assumptions include_words.
Print Assumptions control_total.
