(** Theorems about walking module stacks (properties C01-C09). *)
From Coq Require Import String Ascii List Arith ZArith Lia Bool.
From Verif Require Import Base Dispatch_Model Dispatch_Spec Dispatch_Proofs Dispatch_Resume
  Dispatch_Credit Dispatch_Sticky Dispatch_Frozen Dispatch_Keywords Dispatch_History Dispatch_Trees Dispatch_Sound.
Import ListNotations.
Local Open Scope Z_scope.

(** ** A small concrete world used in the examples *)

(** Modules are numbers; module [k] answers what the [k]-th entry of the script says, and every call
    uses up the first answer of that entry. *)
Definition script := list (list Z).
Definition play (h : handler) (flags : Z) (w : script) : script * Z :=
  match h_func h with
  | None => (w, 0)
  | Some k =>
      match nth_error w k with
      | Some (r :: rs) => (match upd w k rs with Some w' => w' | None => w end, r)
      | _ => (w, 7)
      end
  end.

Definition line (k : nat) (c : kw) (lvl : nat) : handler :=
  mkH HT_MODULE (Some k) (kw_table c) k k [] [] lvl.
Definition jumper (k : nat) (n : Z) (lvl : nat) : handler :=
  mkH HT_MODULE (Some k) (n :: List.repeat ACT_IGNORE 31) k k [] [] lvl.
Definition sub_mark (lvl : nat) : handler := mkH HT_SUBSTACK None (List.repeat ACT_UNDEF 32) 9 9 [] [] lvl.
Definition no_table : htable := mkT [] [] [] [] [] [].
Definition auth_table (l m : list handler) : htable := mkT l m [] [] [] [].
Definition fresh_handle (t : htable) (w : script) : dpam script :=
  mkD false t no_table 0 no_former (mkW w (List.repeat (-1) 10) [] []).
Definition ask_for (choice : Z) : req := mkReq AuNone 0 false 0 choice.

(** ** C01 *)

Theorem dispatch_fail_closed : forall W (call : handler -> Z -> W -> W * Z) (p p1 p2 : dpam W) qs rs q,
  idle W p ->
  history W call qs p = Ok (rs, p1) ->
  serve W call q p1 = Ok (PAM_SUCCESS, p2) ->
  exists stack d h,
    stack_for p2 (q_choice q) = Some stack /\ nth_error stack d = Some h /\
    (* the line is a call to a module function, which was made and answered PAM_SUCCESS *)
    is_call h = true /\ In (d, PAM_SUCCESS) (trace (dp_st p2)) /\
    (exists flags w, snd (call h flags w) = PAM_SUCCESS) /\
    (* and its control lets this count *)
    (exists key a, nth_error (h_actions h) key = Some a /\
       (a = ACT_OK \/ a = ACT_DONE \/
        (0 < a /\ (q_choice q = CH_SETCRED \/ q_choice q = CH_CLOSE_SESSION))) /\
       (q_choice q <> CH_SETCRED -> q_choice q <> CH_CLOSE_SESSION -> key = 0%nat)).
Proof.
  intros W call p p1 p2 qs rs q HI HH HS.
  destruct (idle_inv W call p HI) as (C0 & _ & S0).
  destruct (history_sound W call qs p rs p1 S0 C0 HH) as (S1 & C1).
  apply serve_dispatch in HS. destruct HS as (r0 & ED & ER). specialize (ER eq_refl). subst r0.
  destruct (dispatch_cred W call _ _ _ _ _ _ _ C1 ED) as (_ & HC & _).
  destruct (HC eq_refl) as (_ & stack & E1 & d & h & T1 & T2 & T3 & (key & a & K1 & K2 & K3)).
  destruct (dispatch_sound W call _ _ _ _ _ _ _ S1 C1 ED) as (_ & HT).
  destruct (HT eq_refl stack E1 d 0 T1) as (h' & fl & w & N1 & _ & N3).
  rewrite T2 in N1. inversion N1; subst h'.
  exists stack, d, h. repeat split; eauto.
  exists key, a. repeat split; auto.
  - destruct K2 as [K2|[K2|[K2 K4]]]; auto. right; right. split; auto.
    unfold chain_mode in K2. destruct (Z.eqb_spec (q_choice q) 2), (Z.eqb_spec (q_choice q) 5); simpl in K2; auto; congruence.
  - intros A B. apply K3. unfold chain_mode.
    destruct (Z.eqb_spec (q_choice q) 2), (Z.eqb_spec (q_choice q) 5); simpl; auto; congruence.
Qed.

(** A stack without lines denies. *)
Theorem dispatch_empty_denies : forall W (call : handler -> Z -> W -> W * Z) (p : dpam W) oom flags choice,
  idle W p -> pick (dp_conf p) choice = Some [] -> pick (dp_other p) choice = Some [] ->
  exists p', dispatch call PAM_SUCCESS oom flags choice p = Ok (PAM_PERM_DENIED, p').
Proof.
  intros W call p oom flags choice [H1 H2] H3 H4. unfold dispatch, stack_for. rewrite H1, H3, H4, H2. simpl. eauto.
Qed.

(** If no module ever answers PAM_SUCCESS, no call ever does. *)
Theorem no_success_without_module_success : forall W (call : handler -> Z -> W -> W * Z) (p p1 p2 : dpam W) qs rs q r,
  (forall h flags w, snd (call h flags w) <> PAM_SUCCESS) ->
  idle W p -> history W call qs p = Ok (rs, p1) -> serve W call q p1 = Ok (r, p2) -> r <> PAM_SUCCESS.
Proof.
  intros W call p p1 p2 qs rs q r HN HI HH HS ->.
  destruct (dispatch_fail_closed W call p p1 p2 qs rs q HI HH HS) as (stack & d & h & _ & _ & _ & _ & (fl & w & E) & _).
  apply (HN h fl w E).
Qed.

Example dispatch_fail_closed_ex :
  exists p1 p2,
    history script play [ask_for 1; ask_for 3] (fresh_handle (auth_table [line 0 Required 0; line 1 Optional 0] [])
       [[31; 0]; [7]]) = Ok ([31; 26], p1) /\
    serve script play (ask_for 1) p1 = Ok (0, p2) /\ trace (dp_st p2) = [(1%nat, 7); (0%nat, 0); (0%nat, 31)].
Proof. do 2 eexists. split; [reflexivity|]. split; reflexivity. Qed.

(** ** C02 *)

Theorem substack_semantics : forall W (call : handler -> Z -> W -> W * Z) (p : dpam W) flags choice stack,
  idle W p -> stack_for p choice = Some stack -> stack <> [] -> stack_ok (length (cache (dp_st p))) stack ->
  exists tree, flat tree = stack /\ Forall (placed (length (cache (dp_st p))) 0) tree /\
  match run_stack call flags ((choice =? CH_SETCRED) || (choice =? CH_CLOSE_SESSION)) tree (ww (dp_st p)) (cache (dp_st p)) with
  | SDone v w c => exists p', dispatch call PAM_SUCCESS false flags choice p = Ok (outcome v, p') /\
                     ww (dp_st p') = w /\ cache (dp_st p') = c
  | SSuspended w c => exists p', dispatch call PAM_SUCCESS false flags choice p = Ok (PAM_INCOMPLETE, p') /\
                     ww (dp_st p') = w /\ cache (dp_st p') = c /\ dp_fchoice p' = choice
  end.
Proof.
  intros W call p flags choice stack [HI1 HI2] HS HNE HO.
  destruct (stack_is_tree _ _ HO) as (tree & E & HP). exists tree. split; auto. split; auto.
  pose proof (fresh_sim W call flags (chain_mode choice) _ tree (mkW (ww (dp_st p)) (cache (dp_st p)) [] [])
                (chain_mode_ok choice) HP eq_refl) as HF.
  assert (EZ : fz (chain_mode choice) = (choice =? 2) || (choice =? 5)).
  { unfold chain_mode. destruct ((choice =? 2) || (choice =? 5)); reflexivity. }
  rewrite EZ in HF. cbn [ww cache] in HF.
  unfold dispatch. rewrite HI1, HI2, HS. simpl negb. cbv iota. simpl andb. cbv iota.
  unfold dispatch_aux. destruct stack as [|h t]; [congruence|]. rewrite E.
  destruct (flat tree) as [|h' t'] eqn:EF; [congruence|]. rewrite <- EF in *. unfold run in HF.
  destruct (run_stack call flags ((choice =? 2) || (choice =? 5)) tree (ww (dp_st p)) (cache (dp_st p))) as [v w c|w c].
  - destruct HF as (s' & -> & E1 & E2). eexists. split; [reflexivity|]. auto.
  - destruct HF as (f & s' & -> & E1 & E2). eexists. split; [reflexivity|]. auto.
Qed.

(** The tree of a stack is unique, so "exists tree" above is "for the tree". *)
Theorem substack_semantics_for_tree : forall W (call : handler -> Z -> W -> W * Z) (p : dpam W) flags choice tree,
  idle W p -> stack_for p choice = Some (flat tree) -> tree <> [] ->
  Forall (placed (length (cache (dp_st p))) 0) tree ->
  match run_stack call flags ((choice =? CH_SETCRED) || (choice =? CH_CLOSE_SESSION)) tree (ww (dp_st p)) (cache (dp_st p)) with
  | SDone v w c => exists p', dispatch call PAM_SUCCESS false flags choice p = Ok (outcome v, p') /\
                     ww (dp_st p') = w /\ cache (dp_st p') = c
  | SSuspended w c => exists p', dispatch call PAM_SUCCESS false flags choice p = Ok (PAM_INCOMPLETE, p') /\
                     ww (dp_st p') = w /\ cache (dp_st p') = c /\ dp_fchoice p' = choice
  end.
Proof.
  intros W call p flags choice tree [HI1 HI2] HS HNE HP.
  pose proof (fresh_sim W call flags (chain_mode choice) _ tree (mkW (ww (dp_st p)) (cache (dp_st p)) [] [])
                (chain_mode_ok choice) HP eq_refl) as HF.
  assert (EZ : fz (chain_mode choice) = (choice =? 2) || (choice =? 5)).
  { unfold chain_mode. destruct ((choice =? 2) || (choice =? 5)); reflexivity. }
  rewrite EZ in HF. cbn [ww cache] in HF.
  unfold dispatch. rewrite HI1, HI2, HS. simpl negb. cbv iota. simpl andb. cbv iota.
  unfold dispatch_aux.
  destruct (flat tree) as [|h' t'] eqn:EF.
  { exfalso. destruct tree as [|[h|m b] l]; [congruence| |]; discriminate. }
  rewrite <- EF in *. unfold run in HF.
  destruct (run_stack call flags ((choice =? 2) || (choice =? 5)) tree (ww (dp_st p)) (cache (dp_st p))) as [v w c|w c].
  - destruct HF as (s' & -> & E1 & E2). eexists. split; [reflexivity|]. auto.
  - destruct HF as (f & s' & -> & E1 & E2). eexists. split; [reflexivity|]. auto.
Qed.

(** "sufficient" inside a substack ends only the substack: the required line after it still runs. *)
Definition ex_tree : list item :=
  [Sub (sub_mark 0) [Mod (line 0 Sufficient 1); Mod (line 1 Required 1)]; Mod (line 2 Required 0)].
Example substack_semantics_ex :
  Forall (placed 10 0) ex_tree /\
  run_stack play 0 false ex_tree [[0]; [0]; [7]] (List.repeat (-1) 10) =
    SDone (Bad 7) [[]; [0]; []] [0; -1; 7; -1; -1; -1; -1; -1; -1; -1] /\
  exists p', dispatch play 0 false 0 1 (fresh_handle (auth_table (flat ex_tree) []) [[0]; [0]; [7]]) = Ok (7, p').
Proof.
  split; [|split; [reflexivity|eexists; reflexivity]].
  assert (H : forall k c lvl, (k < 10)%nat -> placed 10 lvl (Mod (line k c lvl))).
  { intros. constructor. repeat split; simpl; auto. discriminate. }
  constructor; [|constructor; [apply H; lia|constructor]].
  constructor; try reflexivity.
  - right. unfold SUBSTACK_MAX. lia.
  - constructor; [apply H; lia|]. constructor; [apply H; lia|constructor].
Qed.

(** ** C03 *)

Theorem keyword_stack_meaning : forall W (call : handler -> Z -> W -> W * Z) (p : dpam W) flags choice l,
  idle W p -> chain_mode choice = PLEASE_FREEZE -> choice <> NOT_STACKED ->
  l <> [] -> stack_for p choice = Some (map snd l) ->
  Forall (kw_line (length (cache (dp_st p)))) l ->
  ~ In PAM_INCOMPLETE (map snd (answers W call flags l (ww (dp_st p)))) ->
  exists p', dispatch call PAM_SUCCESS false flags choice p =
             Ok (kw_result (answers W call flags l (ww (dp_st p))), p').
Proof.
  intros W call p flags choice l [H1 H2] HM HC HNE HS HL HN.
  destruct (keyword_stack W call flags l (mkW (ww (dp_st p)) (cache (dp_st p)) [] []) HNE HL HN) as (s' & E).
  unfold dispatch. rewrite H1, HS, H2, HM. simpl negb. cbv iota. simpl andb. cbv iota. cbn [ww] in E. rewrite E. eauto.
Qed.

(** Reading of [kw_result]: success iff no counting failure among the considered answers and somebody content. *)
Theorem kw_result_success : forall l,
  kw_result l = PAM_SUCCESS <->
  (forall a, In a (considered false l) -> failure a = false) /\
  (exists a, In a (considered false l) /\ snd a = PAM_SUCCESS) /\
  (forall a, In a (considered false l) -> content (snd a) = true -> snd a = PAM_SUCCESS).
Proof.
  intro l. unfold kw_result, verdict_of. generalize (considered false l). intro c.
  assert (SF : forall a : kw * Z, snd a = 0 -> failure a = false) by (intros [[] r] E; simpl in E; subst; reflexivity).
  destruct (find failure c) as [a|] eqn:EF.
  - apply find_some in EF. destruct EF as [I1 I2]. destruct (failure_not_success _ I2) as [N _]. split.
    + intro; congruence.
    + intros (H & _). rewrite (H _ I1) in I2. discriminate.
  - pose proof (find_none _ _ EF) as HF.
    destruct (filter content (map snd c)) as [|z zs] eqn:EC.
    + split; [discriminate|]. intros (_ & (a & A1 & A2) & _).
      assert (In (snd a) (filter content (map snd c))) by (apply filter_In; split; [apply in_map; auto|rewrite A2; reflexivity]).
      rewrite EC in H. destruct H.
    + assert (HM : forall a, In a c -> content (snd a) = true -> In (snd a) (z :: zs)).
      { intros a A1 A2. rewrite <- EC. apply filter_In. split; auto. apply in_map; auto. }
      assert (HZ : forall r, In r (z :: zs) -> exists a, In a c /\ snd a = r /\ content r = true).
      { intros r Hr. rewrite <- EC in Hr. apply filter_In in Hr. destruct Hr as [Hr1 Hr2]. apply in_map_iff in Hr1.
        destruct Hr1 as (a & <- & ?). eauto. }
      destruct (find (fun r => negb (r =? 0)) (z :: zs)) as [r|] eqn:EG.
      * apply find_some in EG. destruct EG as [G1 G2]. destruct (HZ r G1) as (a & A1 & A2 & A3).
        split; [intros ->; discriminate|]. intros (_ & _ & H). rewrite <- A2 in A3. rewrite <- A2, (H a A1 A3) in G2. discriminate.
      * pose proof (find_none _ _ EG) as HG. split; auto. intros _. split; [exact HF|]. split.
        -- destruct (HZ z (or_introl eq_refl)) as (a & A1 & A2 & A3). exists a. split; auto.
           specialize (HG z (or_introl eq_refl)). apply negb_false_iff, Z.eqb_eq in HG. congruence.
        -- intros a A1 A2. specialize (HG _ (HM a A1 A2)). apply negb_false_iff, Z.eqb_eq in HG. auto.
Qed.

(** The code of the first failing required or requisite module is the one returned. *)
Theorem kw_result_first_failure : forall l a pre post,
  considered false l = pre ++ a :: post -> failure a = true -> (forall b, In b pre -> failure b = false) ->
  kw_result l = if in_range (snd a) then snd a else PAM_PERM_DENIED.
Proof.
  intros l a pre post E HA HP. unfold kw_result, verdict_of. rewrite E.
  assert (EF : find failure (pre ++ a :: post) = Some a).
  { clear E. induction pre as [|b pre IH]; simpl; [rewrite HA; auto|]. rewrite (HP b (or_introl eq_refl)). apply IH.
    intros; apply HP; right; auto. }
  rewrite EF. reflexivity.
Qed.

Example keyword_stack_ex :
  answers script play 0 [(Required, line 0 Required 0); (Sufficient, line 1 Sufficient 0); (Required, line 2 Required 0)]
    [[0]; [7]; [10]] = [(Required, 0); (Sufficient, 7); (Required, 10)] /\
  kw_result [(Required, 0); (Sufficient, 7); (Required, 10)] = 10 /\
  kw_result [(Required, 0); (Sufficient, 0); (Required, 10)] = 0 /\
  kw_result [(Required, 9); (Sufficient, 0); (Required, 10)] = 9 /\
  kw_result [(Required, 9); (Requisite, 7); (Required, 0)] = 9 /\
  kw_result [(Optional, 7); (Sufficient, 7)] = PAM_PERM_DENIED /\
  Forall (kw_line 10) [(Required, line 0 Required 0); (Sufficient, line 1 Sufficient 0); (Required, line 2 Required 0)].
Proof.
  split; [reflexivity|]. split; [reflexivity|]. split; [reflexivity|]. split; [reflexivity|]. split; [reflexivity|].
  split; [reflexivity|].
  repeat (apply Forall_cons; [repeat split; simpl; try discriminate; lia|]). constructor.
Qed.

(** ** C04 *)

Theorem resume_is_transparent : forall W (call : handler -> Z -> W -> W * Z) n (p p' : dpam W) flags choice r,
  idle W p -> 1 <= choice <= 6 ->
  insist W call n flags choice p = Ok (r, p') -> r <> PAM_INCOMPLETE ->
  exists p'', dispatch (patient call n) PAM_SUCCESS false flags choice p = Ok (r, p'') /\
    ww (dp_st p'') = ww (dp_st p') /\ cache (dp_st p'') = cache (dp_st p') /\
    grant (dp_st p'') = grant (dp_st p') /\
    settled (trace (dp_st p'')) = settled (trace (dp_st p')).
Proof.
  intros W call n p p' flags choice r HI HC H HR.
  destruct (stack_for p choice) as [h|] eqn:HS.
  2:{ exfalso. unfold stack_for, pick in HS.
      destruct (Z.eqb_spec choice 1); [destruct (t_auth (dp_conf p)); discriminate|].
      destruct (Z.eqb_spec choice 2); [destruct (t_setcred (dp_conf p)); discriminate|].
      destruct (Z.eqb_spec choice 3); [destruct (t_acct (dp_conf p)); discriminate|].
      destruct (Z.eqb_spec choice 4); [destruct (t_open (dp_conf p)); discriminate|].
      destruct (Z.eqb_spec choice 5); [destruct (t_close (dp_conf p)); discriminate|].
      destruct (Z.eqb_spec choice 6); [destruct (t_chauthtok (dp_conf p)); discriminate|]. lia. }
  pose proof (insist_idle W call n flags choice p h r p' HI ltac:(lia) HS H HR) as HIN.
  pose proof (resume_transparent W call flags (chain_mode choice) h n _ _ HIN ltac:(discriminate)) as HT.
  unfold same_out in HT.
  destruct HI as [HI1 HI2]. unfold dispatch. rewrite HI1, HS, HI2. simpl negb. cbv iota. simpl andb. cbv iota.
  destruct (dispatch_aux (patient call n) false flags (chain_mode choice) h None (mkW (ww (dp_st p)) (cache (dp_st p)) [] []))
    as [z s'|f s'| |]; try contradiction.
  destruct HT as [<- (A & B & C & D)]. eexists. split; [reflexivity|]. simpl. auto.
Qed.

(** Over any history of calls, at most one final answer per line and logical call: no module is run again
    once it has answered. *)
Theorem answered_modules_not_rerun : forall W (call : handler -> Z -> W -> W * Z) (p p' : dpam W) qs rs,
  idle W p -> trace (dp_st p) = [] -> history W call qs p = Ok (rs, p') ->
  NoDup (map fst (settled (trace (dp_st p')))).
Proof.
  intros W call p p' qs rs HI HT HH.
  destruct (idle_inv W call p HI) as (C0 & _).
  assert (HO : onceH W p).
  { destruct HI as [_ HI]. split; [rewrite HT; constructor|congruence]. }
  destruct (history_once W call qs p rs p' HO C0 HH) as [[H _] _]. exact H.
Qed.

Example resume_ex :
  exists p1 p2,
    insist script play 5 0 1 (fresh_handle (auth_table (flat ex_tree) []) [[31; 7]; [31; 31; 0]; [31; 0]]) = Ok (0, p1) /\
    trace (dp_st p1) = [(3%nat, 0); (3%nat, 31); (2%nat, 0); (2%nat, 31); (2%nat, 31); (1%nat, 7); (1%nat, 31)] /\
    dispatch (patient play 5) 0 false 0 1 (fresh_handle (auth_table (flat ex_tree) []) [[31; 7]; [31; 31; 0]; [31; 0]]) = Ok (0, p2) /\
    trace (dp_st p2) = [(3%nat, 0); (2%nat, 0); (1%nat, 7)].
Proof. do 2 eexists. repeat (split; [vm_compute; reflexivity|]). vm_compute; reflexivity. Qed.

(** ** C05 *)

Theorem only_suspended_call_resumable : forall W (call : handler -> Z -> W -> W * Z) (p : dpam W) q,
  dp_from_module p = false -> dp_fchoice p <> NOT_STACKED -> q_choice q <> dp_fchoice p ->
  exists r, serve W call q p = Ok (r, p) /\ r <> PAM_SUCCESS /\
    (q_init q = PAM_SUCCESS -> q_audit q = AuNone -> r = PAM_ABORT).
Proof.
  intros W call p q H1 H2 H3. unfold serve, dispatch_audited.
  destruct (dispatch_cases W call (q_init q) (q_oom q) (q_flags q) (q_choice q) p) as [(r0 & E & HN & HX)|(E1 & E2 & E3 & h & E4 & E)].
  2:{ destruct E3; congruence. }
  rewrite E.
  replace (r0 =? 0) with false by (symmetry; apply Z.eqb_neq; auto). rewrite orb_true_r.
  eexists. split; [reflexivity|]. split.
  - intro Q. apply audit_success in Q. auto.
  - intros EI EA. rewrite EA. simpl.
    unfold dispatch in E. rewrite H1, EI in E. simpl in E.
    destruct (stack_for p (q_choice q)).
    + replace (dp_fchoice p =? 0) with false in E by (symmetry; apply Z.eqb_neq; auto).
      replace (dp_fchoice p =? q_choice q) with false in E by (symmetry; apply Z.eqb_neq; auto).
      simpl in E. congruence.
    + congruence.
Qed.

Example only_suspended_ex :
  exists p1, dispatch play 0 false 0 1 (fresh_handle (auth_table [line 0 Required 0] []) [[31; 0]]) = Ok (31, p1) /\
    dp_from_module p1 = false /\ dp_fchoice p1 = 1 /\ serve script play (ask_for 3) p1 = Ok (26, p1).
Proof. eexists. repeat (split; [vm_compute; reflexivity|]). vm_compute; reflexivity. Qed.

(** ** C06 *)

Definition visited {W} (p : dpam W) : list nat := rev (map fst (settled (trace (dp_st p)))).

(** The statement as given is false: a module that answers PAM_IGNORE in pam_setcred does not stop the
    chain where its success in pam_authenticate did. *)
Definition frozen_ex : dpam script :=
  fresh_handle (auth_table [line 0 Sufficient 0; line 1 Required 0] [line 2 Sufficient 0; line 3 Required 0])
    [[0]; [7]; [PAM_IGNORE]; [0]].
Definition frozen_ex_cells : dpam script :=
  fresh_handle (auth_table [line 0 Sufficient 0; line 1 Required 0]
     [mkH HT_MODULE (Some 2%nat) (kw_table Sufficient) 2 0 [] [] 0; mkH HT_MODULE (Some 3%nat) (kw_table Required) 3 1 [] [] 0])
    [[0]; [7]; [PAM_IGNORE]; [0]].

Theorem frozen_chain_same_modules_refuted :
  exists (p p1 p2 : dpam script) A B r,
    stack_for p CH_AUTHENTICATE = Some A /\ stack_for p CH_SETCRED = Some B /\ Forall2 twin A B /\
    dispatch play PAM_SUCCESS false 0 CH_AUTHENTICATE p = Ok (PAM_SUCCESS, p1) /\
    dispatch play PAM_SUCCESS false 0 CH_SETCRED p1 = Ok (r, p2) /\
    visited p1 = [0%nat] /\ visited p2 = [0%nat; 1%nat].
Proof.
  exists frozen_ex_cells. do 5 eexists. split; [reflexivity|]. split; [reflexivity|]. split.
  - repeat constructor.
  - repeat (split; [vm_compute; reflexivity|]). vm_compute; reflexivity.
Qed.

(** It holds when the second pass never answers PAM_IGNORE or PAM_INCOMPLETE and the first pass never
    answers -1 (which the library takes as "nothing recorded"). *)
Theorem frozen_chain_same_modules : forall W (call1 call2 : handler -> Z -> W -> W * Z) (p p1 : dpam W) first second
    flags1 flags2 A B r w2,
  (first = CH_AUTHENTICATE /\ second = CH_SETCRED) \/ (first = CH_OPEN_SESSION /\ second = CH_CLOSE_SESSION) ->
  (forall h fl w, snd (call1 h fl w) <> -1) ->
  (forall h fl w, snd (call2 h fl w) <> PAM_IGNORE /\ snd (call2 h fl w) <> PAM_INCOMPLETE) ->
  idle W p -> stack_for p first = Some A -> stack_for p second = Some B ->
  Forall2 twin A B -> NoDup (map h_cell A) ->
  stack_ok (length (cache (dp_st p))) A ->
  dispatch call1 PAM_SUCCESS false flags1 first p = Ok (r, p1) -> r <> PAM_INCOMPLETE ->
  exists r2 p2,
    (* whatever the application and others did to the world in between *)
    dispatch call2 PAM_SUCCESS false flags2 second
      (mkD false (dp_conf p1) (dp_other p1) (dp_fchoice p1) (dp_former p1) (mkW w2 (cache (dp_st p1)) (grant (dp_st p1)) (trace (dp_st p1))))
      = Ok (r2, p2) /\
    map fst (trace (dp_st p2)) = map fst (trace (dp_st p1)).
Proof.
  intros W call1 call2 p p1 first second flags1 flags2 A B r w2 HCH HC1 HC2 [HI1 HI2] HA HB HT HN HOK HD HR.
  assert (HM : chain_mode first = PLEASE_FREEZE /\ chain_mode second = MAY_BE_FROZEN).
  { destruct HCH as [[-> ->]|[-> ->]]; split; reflexivity. }
  destruct HM as [HM1 HM2].
  pose proof (safe_walk W call1 A _ PLEASE_FREEZE ltac:(discriminate) HOK false flags1 None (mkW (ww (dp_st p)) (cache (dp_st p)) [] [])
                eq_refl ltac:(discriminate)) as HSW.
  unfold dispatch in HD. rewrite HI1, HI2, HA, HM1 in HD. simpl negb in HD. cbv iota in HD. simpl andb in HD. cbv iota in HD.
  destruct (dispatch_aux call1 false flags1 PLEASE_FREEZE A None (mkW (ww (dp_st p)) (cache (dp_st p)) [] [])) as [z s1|f s1| |] eqn:EA;
    try discriminate.
  2:{ inversion HD; subst. congruence. }
  inversion HD; subst r p1. clear HD.
  assert (HAE : Forall (fun h => length (h_actions h) = 32%nat /\ (h_cell h < length (cache s1))%nat) A).
  { destruct HOK as [_ HOK]. rewrite Forall_forall in *. intros x Hx. destruct (HOK x Hx) as (? & ? & ? & ?). split; auto. congruence. }
  destruct (frozen_same_path W call1 W call2 HC1 (fun h fl w => proj1 (HC2 h fl w)) (fun h fl w => proj2 (HC2 h fl w)) flags1 flags2 A B
             (mkW (ww (dp_st p)) (cache (dp_st p)) [] []) s1 z w2 HT HN HAE eq_refl EA) as (z2 & s2 & E2 & E3).
  unfold dispatch. cbn [dp_from_module dp_conf dp_other dp_fchoice dp_former dp_st ww cache grant trace].
  rewrite stack_for_eq, HB.
  replace (z =? 31) with false by (symmetry; apply Z.eqb_neq; auto). simpl negb. cbv iota. simpl andb. cbv iota.
  rewrite HM2, E2. do 2 eexists. split; [reflexivity|]. exact E3.
Qed.

Example frozen_chain_ex :
  exists p1 p2,
   dispatch play 0 false 0 1 (fresh_handle (auth_table [line 0 Sufficient 0; line 1 Required 0]
     [mkH HT_MODULE (Some 2%nat) (kw_table Sufficient) 2 0 [] [] 0; mkH HT_MODULE (Some 3%nat) (kw_table Required) 3 1 [] [] 0])
    [[7]; [0]; [0]; [7]]) = Ok (0, p1) /\
   dispatch play 0 false 0 2 p1 = Ok (7, p2) /\ visited p1 = [0; 1]%nat /\ visited p2 = [0; 1]%nat.
Proof. do 2 eexists. repeat (split; [vm_compute; reflexivity|]). vm_compute; reflexivity. Qed.

(** ** C07 *)

Theorem dispatch_no_undefined_behaviour : forall W (call : handler -> Z -> W -> W * Z) (p : dpam W) qs,
  idle W p -> tables_ok W (length (cache (dp_st p))) p ->
  exists rs p', history W call qs p = Ok (rs, p') /\ length rs = length qs.
Proof.
  intros W call p qs HI HT.
  destruct (idle_inv W call p HI) as (C0 & _).
  assert (HS : safeH W (length (cache (dp_st p))) p).
  { split; auto. split; auto. destruct HI as [_ HI]. congruence. }
  destruct (history_safe W call _ qs p HS C0) as (rs & p' & E & _). exists rs, p'. split; auto.
  clear -E. revert p rs p' E. induction qs as [|q qs IH]; intros p rs p' E; simpl in E; [inversion E; auto|].
  destruct (serve W call q p) as [[r p1]| |]; try discriminate.
  destruct (history W call qs p1) as [[rs1 p2]| |] eqn:EH; try discriminate. inversion E; subst.
  simpl. erewrite IH; eauto.
Qed.

(** Without the hypothesis undefined behaviour is possible: a level that was never entered. *)
Example undefined_without_levels :
  dispatch play 0 false 0 1 (fresh_handle (auth_table
     [line 0 Required 0; mkH HT_MODULE (Some 1%nat) (ACT_RESET :: List.repeat ACT_BAD 31) 1 1 [] [] 17] []) [[0]; [0]]) = UB.
Proof. reflexivity. Qed.
Example no_undefined_ex : stack_ok 10 (flat ex_tree).
Proof.
  split; [simpl; lia|]. simpl. repeat (apply Forall_cons; [repeat split; simpl; unfold SUBSTACK_MAX; lia|]). constructor.
Qed.

(** ** C08 and C09 *)

(** A success of an ordinary (not frozen) function means: no line of the call gave an answer that its
    control calls bad or die, jumped further than its (sub)stack goes, or answered something that is no
    return code -- unless some answer selected "reset". *)
Theorem fatal_answers_never_succeed : forall W (call : handler -> Z -> W -> W * Z) (p p1 p2 : dpam W) qs rs q,
  idle W p -> levels_fine W p ->
  history W call qs p = Ok (rs, p1) ->
  serve W call q p1 = Ok (PAM_SUCCESS, p2) ->
  q_choice q <> CH_SETCRED -> q_choice q <> CH_CLOSE_SESSION ->
  forall stack d r h rest,
    stack_for p2 (q_choice q) = Some stack ->
    no_reset_used stack (trace (dp_st p2)) ->
    In (d, r) (trace (dp_st p2)) -> r <> PAM_INCOMPLETE -> skipn d stack = h :: rest ->
    0 <= r < 32 /\
    (forall a, nth_error (h_actions h) (Z.to_nat r) = Some a ->
       a <> ACT_BAD /\ a <> ACT_DIE /\ a <= room (h_level h) rest).
Proof.
  intros W call p p1 p2 qs rs q HI HL HH HS Q1 Q2 stack d r h rest ES HNU HIN HNI HSK.
  destruct (idle_inv W call p HI) as (C0 & T0 & _).
  destruct (history_stuck W call qs p rs p1 HL T0 C0 HH) as (L1 & T1 & C1).
  apply serve_dispatch in HS. destruct HS as (r0 & ED & ER). specialize (ER eq_refl). subst r0.
  destruct (dispatch_stuck W call _ _ _ _ _ _ _ L1 T1 C1 ED) as (_ & _ & HF).
  assert (HM : chain_mode (q_choice q) = PLEASE_FREEZE).
  { unfold chain_mode. destruct (Z.eqb_spec (q_choice q) 2), (Z.eqb_spec (q_choice q) 5); simpl; auto; congruence. }
  specialize (HF eq_refl HM stack ES HNU).
  assert (HNF : ~ fatal h rest r).
  { intro HFt. apply HF. exists d, r, h, rest. auto. }
  unfold fatal in HNF.
  assert (HR : 0 <= r < 32) by (destruct (Z.lt_ge_cases r 0), (Z.le_gt_cases 32 r); try lia; exfalso; apply HNF; auto).
  split; auto. intros a Ha. repeat split; try (intros ->; apply HNF; right; right; eexists; eauto).
  destruct (Z.le_gt_cases a (room (h_level h) rest)); auto. exfalso. apply HNF. right; right. exists a. auto.
Qed.

(** A jump too far: module 0 asks to skip three lines, only two follow. *)
Example jump_too_far_ex :
  exists p1 p2,
  dispatch play 0 false 0 1 (fresh_handle (auth_table [line 3 Required 0; jumper 0 3 0; line 1 Required 0; line 2 Required 0] [])
      [[0]; [0]; [0]; [0]]) = Ok (PAM_PERM_DENIED, p1) /\
  dispatch play 0 false 0 1 (fresh_handle (auth_table [line 3 Required 0; jumper 0 2 0; line 1 Required 0; line 2 Required 0] [])
      [[0]; [0]; [0]; [0]]) = Ok (0, p2) /\
  room 0 [line 1 Required 0; line 2 Required 0] = 2.
Proof. do 2 eexists. repeat (split; [vm_compute; reflexivity|]). vm_compute; reflexivity. Qed.

(** "room" counts what it should: in the tree, a jump from an item has exactly as much room as there are
    items after it in its own (sub)stack. *)
Theorem room_is_remaining_items : forall nc lvl l rest,
  Forall (placed nc lvl) l -> match rest with [] => True | g :: _ => (h_level g < lvl)%nat end ->
  room lvl (flat l ++ rest) = Z.of_nat (length l).
Proof.
  intros nc lvl l rest HP HR.
  assert (R0 : room lvl rest = 0).
  { destruct rest as [|g q]; auto. simpl. apply Nat.ltb_lt in HR. rewrite HR. reflexivity. }
  assert (DEEP : forall x lv q, placed nc lv x -> (lvl < lv)%nat -> room lvl (flat_item x ++ q) = room lvl q).
  { intro x. induction x as [h|m body IH] using item_ind'; intros lv q HPx Hl; inversion HPx as [lv' h' HL|lv' m' b' EL ET EB HB];
      cbn [flat_item app room].
    - destruct HL as (E & _).
      replace (h_level h <? lvl)%nat with false by (symmetry; apply Nat.ltb_ge; lia).
      replace (h_level h =? lvl)%nat with false by (symmetry; apply Nat.eqb_neq; lia). lia.
    - replace (h_level m <? lvl)%nat with false by (symmetry; apply Nat.ltb_ge; lia).
      replace (h_level m =? lvl)%nat with false by (symmetry; apply Nat.eqb_neq; lia).
      assert (Q : room lvl (flat_map flat_item body ++ q) = room lvl q).
      { clear - IH HB Hl. induction body as [|y body IHb]; auto.
        inversion IH as [|y1 b1 Y1 Y2]; subst. inversion HB as [|y2 b2 Y3 Y4]; subst.
        cbn [flat_map]. rewrite <- app_assoc. rewrite (Y1 (S lv)); auto. }
      rewrite Q. lia. }
  induction HP as [|x l Hx Hl IH]; [exact R0|].
  rewrite flat_cons, <- app_assoc. inversion Hx as [lv' h' HL|lv' m body EL ET EB HB]; cbn [flat_item app room].
  - destruct HL as (E & _). rewrite E, Nat.ltb_irrefl, Nat.eqb_refl, IH. cbn [length]. lia.
  - rewrite EL, Nat.ltb_irrefl, Nat.eqb_refl.
    assert (Q : forall q, room lvl (flat_map flat_item body ++ q) = room lvl q).
    { clear - HB DEEP. intro q. induction HB as [|y body Hy Hb IHb]; auto. cbn [flat_map]. rewrite <- app_assoc.
      rewrite (DEEP y (S lvl)); auto. }
    rewrite Q, IH. cbn [length]. lia.
Qed.

Example room_ex : room 0 (flat ex_tree) = 2 /\ room 1 (flat [Mod (line 0 Sufficient 1); Mod (line 1 Required 1)] ++ [line 2 Required 0]) = 2.
Proof. split; reflexivity. Qed.

(** An answer that is no return code counts like PAM_PERM_DENIED with a "bad" control, whatever the other
    entries of its control line say: replacing it by PAM_PERM_DENIED changes nothing, for stacks whose
    controls treat PAM_PERM_DENIED as bad. *)
Theorem odd_answers_count_as_denied : forall W (call : handler -> Z -> W -> W * Z) (p : dpam W) flags choice tree,
  idle W p -> chain_mode choice = PLEASE_FREEZE -> stack_for p choice = Some (flat tree) ->
  Forall (placed (length (cache (dp_st p))) 0) tree -> Forall (all_lines bad_on_denied) tree ->
  exists r p1 p2,
    dispatch call PAM_SUCCESS false flags choice p = Ok (r, p1) /\
    dispatch (tamed W call) PAM_SUCCESS false flags choice p = Ok (r, p2) /\
    ww (dp_st p1) = ww (dp_st p2).
Proof.
  intros W call p flags choice tree [HI1 HI2] HM HS HP HA.
  pose proof (aux_tamed W call flags _ tree (mkW (ww (dp_st p)) (cache (dp_st p)) [] []) HP eq_refl HA) as H.
  unfold dispatch. rewrite HI1, HI2, HS, HM. simpl negb. cbv iota. simpl andb. cbv iota.
  destruct (dispatch_aux call false flags PLEASE_FREEZE (flat tree) None (mkW (ww (dp_st p)) (cache (dp_st p)) [] [])) as [z s1|f s1| |],
           (dispatch_aux (tamed W call) false flags PLEASE_FREEZE (flat tree) None (mkW (ww (dp_st p)) (cache (dp_st p)) [] [])) as [z2 s2|f2 s2| |];
    try contradiction.
  - destruct H as [-> H]. do 3 eexists. split; [reflexivity|]. split; [reflexivity|]. exact H.
  - do 3 eexists. split; [reflexivity|]. split; [reflexivity|]. exact H.
Qed.

Example odd_answers_ex :
  exists p1, dispatch play 0 false 0 1 (fresh_handle (auth_table [line 0 Required 0; line 1 Sufficient 0] []) [[4711]; [0]])
   = Ok (PAM_PERM_DENIED, p1) /\ trace (dp_st p1) = [(1%nat, 0); (0%nat, 4711)].
Proof. eexists. split; reflexivity. Qed.
(** Even where everything else is ignored. *)
Example odd_answers_optional_ex :
  exists p1, dispatch play 0 false 0 1 (fresh_handle (auth_table [line 0 Optional 0; line 1 Sufficient 0] []) [[-3]; [0]])
   = Ok (PAM_PERM_DENIED, p1).
Proof. eexists. reflexivity. Qed.

(** ** The audit step *)
Theorem audit_never_grants : forall W (call : handler -> Z -> W -> W * Z) e init_rv oom flags choice (p p' : dpam W),
  dispatch_audited call e init_rv oom flags choice p = Ok (PAM_SUCCESS, p') ->
  dispatch call init_rv oom flags choice p = Ok (PAM_SUCCESS, p').
Proof.
  intros W call e init_rv oom flags choice p p' H.
  pose proof (serve_dispatch W call (mkReq e init_rv oom flags choice) p PAM_SUCCESS p' H) as (r0 & E & ER).
  rewrite (ER eq_refl) in E. exact E.
Qed.
Example audit_ex :
  exists p', dispatch_audited play (AuOpen true true) 0 false 0 1 (fresh_handle (auth_table [line 0 Required 0] []) [[0]]) = Ok (0, p') /\
  dispatch_audited play (AuOpen false true) 0 false 0 1 (fresh_handle (auth_table [line 0 Required 0] []) [[0]]) = Ok (4, p').
Proof. eexists. split; reflexivity. Qed.

Print Assumptions dispatch_fail_closed.
Print Assumptions dispatch_empty_denies.
Print Assumptions no_success_without_module_success.
Print Assumptions substack_semantics.
Print Assumptions substack_semantics_for_tree.
Print Assumptions keyword_stack_meaning.
Print Assumptions kw_result_success.
Print Assumptions kw_result_first_failure.
Print Assumptions resume_is_transparent.
Print Assumptions answered_modules_not_rerun.
Print Assumptions only_suspended_call_resumable.
Print Assumptions frozen_chain_same_modules_refuted.
Print Assumptions frozen_chain_same_modules.
Print Assumptions dispatch_no_undefined_behaviour.
Print Assumptions fatal_answers_never_succeed.
Print Assumptions room_is_remaining_items.
Print Assumptions odd_answers_count_as_denied.
Print Assumptions audit_never_grants.
