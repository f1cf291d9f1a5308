(** Theorems about loading configurations (properties C13, C14, C16, C17). *)
From Coq Require Import String Ascii List Arith ZArith Lia Bool Permutation.
From Verif Require Import Base Dispatch_Model Dispatch_Sticky Dispatch_History Dispatch_Props Ctl_Model Ctl_Props Tok_Model Line_Model
  Conf_Model Conf_Spec Conf_Proofs Conf_Tables.
Import ListNotations.
Local Open Scope Z_scope.

(** What getline delivers: no newline except as the last byte. *)
Definition from_getline (f : list (list ascii)) : Prop := forall line a b, In line f -> line = a ++ c_nl :: b -> b = [].

Lemma from_getline_like : forall f, from_getline f -> Forall getline_like f.
Proof. intros f H. apply Forall_forall. intros l HI a b E. exact (H l a b HI E). Qed.

(** Example file systems: paths with their lines. *)
Definition text (l : list string) : list (list ascii) := map (fun s => lit s ++ [c_nl]) l.
Fixpoint disk (l : list (string * list string)) (path : cstr) : option (list (list ascii)) :=
  match l with
  | [] => None
  | (p, t) :: l => if streq (lit p) path then Some (text t) else disk l path
  end.
(** Example modules: every file has every function, number = length of the path. *)
Definition some_symbol (path : cstr) (sy : string) : option nat := Some (length path).
Definition ex_dir : cstr := lit "/lib/security/".

(** ** C13 *)

(** Reading a configuration always ends, with PAM_SUCCESS or PAM_ABORT, whatever the files are and
    include, and without undefined behaviour; every entry is nested less than 16 deep. *)
Theorem loading_terminates : forall fs symbol mdir confdir service dir,
  (forall f, fs (lit "/etc/pam.conf") = Some f -> from_getline f) ->
  exists rv s, init_handlers fs symbol mdir confdir service dir = Ok (rv, s) /\
    (rv = 0 \/ rv = 26) /\
    forall h, In h (everything s) -> (h_level h < 16)%nat.
Proof.
  intros fs symbol mdir confdir service dir HF.
  destruct (configured_total fs confdir service dir) as (es & good & HC); [intros f E; apply from_getline_like; auto|].
  exists (if good then PAM_SUCCESS else PAM_ABORT), (fold_left (put symbol mdir) es empty_cst).
  split; [apply init_run; exact HC|]. split; [destruct good; auto|].
  pose proof (stacks_fit symbol mdir _ _ _ _ _ _ HC) as SF. cbv zeta in SF. set (s := fold_left (put symbol mdir) es empty_cst) in *.
  assert (L1 : forall o ty h, In h (list1 ty (table o s)) -> (h_level h < 16)%nat).
  { intros o ty h HI. destruct (SF o ty) as [[_ X] _]. rewrite Forall_forall in X. apply X. exact HI. }
  assert (L2 : forall o ty h, In h (list2 ty (table o s)) -> (h_level h < 16)%nat).
  { intros o ty h HI. destruct (SF o ty) as [_ [_ X]]. rewrite Forall_forall in X. apply X. exact HI. }
  intros h HI. unfold everything, lists in HI. rewrite !in_app_iff in HI.
  destruct HI as [[HI|[HI|[HI|[HI|[HI|HI]]]]]|[HI|[HI|[HI|[HI|[HI|HI]]]]]];
    [apply (L1 false T_AUTH)|apply (L2 false T_AUTH)|apply (L1 false T_ACCT)|apply (L1 false T_SESS)|apply (L2 false T_SESS)|apply (L1 false T_PASS)
    |apply (L1 true T_AUTH)|apply (L2 true T_AUTH)|apply (L1 true T_ACCT)|apply (L1 true T_SESS)|apply (L2 true T_SESS)|apply (L1 true T_PASS)]; exact HI.
Qed.

(** A file that includes itself as a substack: sixteen markers, then the failure. *)
Example loading_cycle_ex :
  exists s, init_handlers (disk [("/etc/pam.d/login", ["auth substack login"])]%string) some_symbol ex_dir None (lit "login") true = Ok (0, s) /\
    map h_level (t_auth (c_conf s)) = seq 0 16 ++ [15%nat] /\
    map h_type (t_auth (c_conf s)) = repeat HT_SUBSTACK 16 ++ [HT_MUST_FAIL].
Proof. eexists. split; [vm_compute; reflexivity|]. split; vm_compute; reflexivity. Qed.

(** A handle with a loaded configuration. *)
Definition holds (W : Type) (p : dpam W) (s : cst) : Prop :=
  dp_conf p = c_conf s /\ dp_other p = c_other s /\ length (cache (dp_st p)) = c_next s.

(** Whatever was loaded, running its stacks is free of undefined behaviour (with C07). *)
Theorem loaded_stacks_are_safe : forall fs symbol mdir confdir service dir rv s W (call : handler -> Z -> W -> W * Z) (p : dpam W) qs,
  (forall f, fs (lit "/etc/pam.conf") = Some f -> from_getline f) ->
  init_handlers fs symbol mdir confdir service dir = Ok (rv, s) -> holds W p s -> idle W p ->
  exists rs p', history W call qs p = Ok (rs, p') /\ length rs = length qs.
Proof.
  intros fs symbol mdir confdir service dir rv s W call p qs HF HI (H1 & H2 & H3) HID.
  destruct (configured_total fs confdir service dir) as (es & good & HC); [intros f E; apply from_getline_like; auto|].
  rewrite (init_run fs symbol mdir confdir service dir es good HC) in HI. injection HI as _ <-.
  apply dispatch_no_undefined_behaviour; [exact HID|]. rewrite H3.
  pose proof (stacks_fit symbol mdir _ _ _ _ _ _ HC) as SF. cbv zeta in SF. set (s := fold_left (put symbol mdir) es empty_cst) in *.
  assert (PK : forall o choice h, pick (table o s) choice = Some h -> stack_ok (c_next s) h).
  { intros o choice h HP. unfold pick in HP.
    destruct (choice =? CH_AUTHENTICATE); [injection HP as <-; apply (SF o T_AUTH)|].
    destruct (choice =? CH_SETCRED); [injection HP as <-; apply (SF o T_AUTH)|].
    destruct (choice =? CH_ACCOUNT); [injection HP as <-; apply (SF o T_ACCT)|].
    destruct (choice =? CH_OPEN_SESSION); [injection HP as <-; apply (SF o T_SESS)|].
    destruct (choice =? CH_CLOSE_SESSION); [injection HP as <-; apply (SF o T_SESS)|].
    destruct (choice =? CH_CHAUTHTOK); [injection HP as <-; apply (SF o T_PASS)|discriminate]. }
  intros choice h [HP|HP]; [apply (PK false choice)|apply (PK true choice)]; cbn [table]; congruence.
Qed.

(** A handler that denies by itself and whose denial always counts. *)
Definition failing (h : handler) : Prop := h_type h = HT_MUST_FAIL /\ h_actions h = repeat (-3) 32.

Lemma list1_grows : forall symbol mdir es s o ty, exists post,
  list1 ty (table o (fold_left (put symbol mdir) es s)) = list1 ty (table o s) ++ post.
Proof.
  intros symbol mdir. induction es as [|e es IH]; intros s o ty; cbn [fold_left]; [exists []; symmetry; apply app_nil_r|].
  destruct (IH (put symbol mdir s e) o ty) as (post & ->). rewrite put_list1, <- app_assoc. eexists. reflexivity.
Qed.

(** While reading a file, a line that includes a file which is too deep, not named or not readable:
    whatever follows, the stack then has a failing entry after what was there before. *)
Theorem failed_include_leaves_failure : forall fs symbol mdir confdir service k known req level l ls ok st this ws o ty kind c sub file good st',
  (known = None -> Forall has_word ls) ->
  concerns known (mkargv l) this ws -> wanted service this -> for_other this o ->
  type_says req (nth_error ws 0) ty kind -> req = None \/ req = Some ty ->
  nth_error ws 1 = Some c -> control_of c = Ok (if sub : bool then CtlSubstack else CtlInclude) -> nth_error ws 2 = file ->
  (k = 0%nat \/ file = None \/ exists n, file = Some n /\ open_config fs confdir n = None) ->
  (sub = true -> nameable (marker o ty level file)) ->
  parse_lines symbol mdir service (load_conf fs symbol mdir confdir service k) known req level (l :: ls) ok st = Ok (good, st') ->
  exists mid h post, list1 ty (table o st') = list1 ty (table o st) ++ mid ++ h :: post /\ failing h /\ h_level h = level /\
    length mid = if sub then 1%nat else 0%nat.
Proof.
  intros fs symbol mdir confdir service k known req level l ls ok st this ws o ty kind c sub file good st' HW HC HWn HO HT HR H1 H2 H3 HF HN H.
  destruct (expands_total fs confdir service k known req level ls ok HW) as (es2 & g2 & HX).
  assert (HI : forall lv, included (open_config fs confdir) service k this ty lv file [] false).
  { intros lv. destruct HF as [->|[->|(n & -> & E)]]; [constructor|constructor|apply I_unreadable; exact E]. }
  set (front := if sub then [marker o ty level file] else []).
  assert (HE : expands (open_config fs confdir) service k known req level (l :: ls) ok (front ++ [] ++ [fail_entry o ty level] ++ es2) g2).
  { destruct sub; unfold front.
    - eapply (X_substack _ _ k known req level l ls ok this ws o ty file [] false es2 g2); try eassumption; [|apply HN; reflexivity|apply HI].
      rewrite <- H3. eapply says_substack; eassumption.
    - eapply (X_include _ _ k known req level l ls ok this ws o ty file [] false es2 g2); try eassumption; [|apply HI].
      rewrite <- H3. eapply says_include; eassumption. }
  rewrite (proj1 (expands_run fs symbol mdir confdir service) _ _ _ _ _ _ _ _ HE st) in H. injection H as _ <-.
  cbn [app]. rewrite fold_left_app. cbn [fold_left].
  set (s1 := fold_left (put symbol mdir) front st).
  destruct (list1_grows symbol mdir es2 (put symbol mdir s1 (fail_entry o ty level)) o ty) as (post & ->).
  assert (EM : mine o ty (fail_entry o ty level) = true).
  { unfold mine. cbn [fail_entry e_other e_type]. rewrite eqb_reflx, (proj2 (mtype_eqb_spec ty ty) eq_refl). reflexivity. }
  rewrite put_list1, EM. unfold s1, front. destruct sub; cbn [fold_left].
  - assert (EM' : mine o ty (marker o ty level file) = true) by exact EM.
    rewrite put_list1, EM'. rewrite <- !app_assoc. eexists [_], _, post. split; [reflexivity|]. repeat split.
  - rewrite <- app_assoc. eexists [], _, post. split; [reflexivity|]. repeat split.
Qed.

Example failed_include_ex :
  exists s, init_handlers (disk [("/etc/pam.d/login", ["auth include nowhere"; "auth required pam_unix.so"])]%string) some_symbol ex_dir None (lit "login") true
     = Ok (0, s) /\
   map h_type (t_auth (c_conf s)) = [HT_MUST_FAIL; HT_MODULE] /\
   (exists p', dispatch play 0 false 0 1 (mkD false (c_conf s) (c_other s) NOT_STACKED (dp_former (fresh_handle no_handlers []))
       (mkW (repeat [0] 40) (repeat (-1) (c_next s)) [] [])) = Ok (6, p')).
Proof. eexists. split; [vm_compute; reflexivity|]. split; [vm_compute; reflexivity|]. eexists. vm_compute. reflexivity. Qed.

(** ** C14 *)

(** A line for the service whose type is missing or no type, or that has no control or no module --
    unless its control is include or substack, see below -- leaves an entry that denies by itself;
    the denial counts as the line's control says, and as "bad" when there is no control or the
    control was not understood. *)
Theorem malformed_line_denies : forall fs symbol mdir confdir service k known req level l ls ok st this ws o ty kind good st',
  (known = None -> Forall has_word ls) ->
  concerns known (mkargv l) this ws -> wanted service this -> for_other this o ->
  type_says req (nth_error ws 0) ty kind -> req = None \/ req = Some ty ->
  kind = HT_MUST_FAIL \/ nth_error ws 1 = None \/ nth_error ws 2 = None ->
  (forall c, nth_error ws 1 = Some c -> control_of c <> Ok CtlInclude /\ control_of c <> Ok CtlSubstack) ->
  (forall m, nth_error ws 2 = Some m -> module_name (Some m) <> None) ->
  parse_lines symbol mdir service (load_conf fs symbol mdir confdir service k) known req level (l :: ls) ok st = Ok (good, st') ->
  exists h post, list1 ty (table o st') = list1 ty (table o st) ++ h :: post /\ h_type h = HT_MUST_FAIL /\ h_level h = level /\
    h_actions h = match nth_error ws 1 with
                  | None => repeat (-3) 32
                  | Some c => match control_of c with Ok (CtlTable tab) => tab | _ => [] end
                  end.
Proof.
  intros fs symbol mdir confdir service k known req level l ls ok st this ws o ty kind good st' HW HC HWn HO HT HR HM HNI HMN H.
  destruct (expands_total fs confdir service k known req level ls ok HW) as (es2 & g2 & HX).
  assert (HS : exists tab m args, says req ws (Entry ty HT_MUST_FAIL tab m args) /\ module_name m <> None /\
     tab = match nth_error ws 1 with None => repeat (-3) 32 | Some c => match control_of c with Ok (CtlTable tab) => tab | _ => [] end end).
  { destruct (nth_error ws 1) as [c|] eqn:E1.
    - destruct (control_total c) as (ctl & EC & _). destruct (HNI c eq_refl) as [N1 N2]. destruct ctl as [tab| |]; try congruence.
      destruct (nth_error ws 2) as [m|] eqn:E2.
      + destruct HM as [HM|[HM|HM]]; try discriminate. subst kind. exists tab, (Some m), (skipn 3 ws). rewrite EC.
        split; [eapply says_module; eassumption|]. split; [apply HMN; reflexivity|reflexivity].
      + exists tab, None, []. rewrite EC. split; [eapply says_nomodule; eassumption|]. split; [discriminate|reflexivity].
    - exists (repeat (-3) 32), None, []. split; [eapply says_nocontrol; eassumption|]. split; [discriminate|reflexivity]. }
  destruct HS as (tab & m & args & HS & HN & <-).
  set (e := mkE o ty HT_MUST_FAIL tab m args level).
  assert (HE : expands (open_config fs confdir) service k known req level (l :: ls) ok (e :: es2) g2).
  { apply (X_entry _ _ k known req level l ls ok es2 g2 this ws o ty HT_MUST_FAIL tab m args e); auto. }
  rewrite (proj1 (expands_run fs symbol mdir confdir service) _ _ _ _ _ _ _ _ HE st) in H. injection H as _ <-. cbn [fold_left].
  destruct (list1_grows symbol mdir es2 (put symbol mdir st e) o ty) as (post & ->).
  assert (EM : mine o ty e = true).
  { unfold mine. cbn [e e_other e_type]. rewrite eqb_reflx, (proj2 (mtype_eqb_spec ty ty) eq_refl). reflexivity. }
  rewrite put_list1, EM, <- app_assoc. eexists _, post. split; [reflexivity|]. repeat split.
Qed.

(** A control that is not understood makes every answer of its module bad (with control_garbage_all_bad of C10);
    its entry is not dropped either. *)
Example malformed_ex :
  exists s, init_handlers (disk [("/etc/pam.d/login", ["auth"; "auth required"; "bogus required pam_a.so"; "auth nonsense pam_b.so"; "account required pam_c.so"])]%string)
      some_symbol ex_dir None (lit "login") true = Ok (0, s) /\
    map h_type (t_auth (c_conf s)) = [HT_MUST_FAIL; HT_MUST_FAIL; HT_MUST_FAIL; HT_MODULE] /\
    map (fun h => nth 6 (h_actions h) 0) (t_auth (c_conf s)) = [-3; -3; -3; -3] /\
    map (fun h => nth 0 (h_actions h) 0) (t_auth (c_conf s)) = [-3; -1; -1; -3].
Proof. eexists. split; [vm_compute; reflexivity|]. repeat (split; [vm_compute; reflexivity|]). vm_compute; reflexivity. Qed.

(** The claim without the exception is false: a line of no known type that includes a file acts like a
    correct auth line, and nothing in any stack fails. *)
Theorem malformed_include_fails_refuted :
  exists fs l s,
    fs (lit "/etc/pam.d/login") = Some (text [l]) /\ type_field None (nth_error (mkargv (lit l)) 0) = (T_AUTH, HT_MUST_FAIL) /\
    init_handlers fs some_symbol ex_dir None (lit "login") true = Ok (0, s) /\
    everything s <> [] /\ forall h, In h (everything s) -> h_type h = HT_MODULE /\ h_func h <> None.
Proof.
  exists (disk [("/etc/pam.d/login", ["bogus include base"]); ("/etc/pam.d/base", ["auth required pam_permit.so"])]%string), "bogus include base"%string.
  eexists. split; [vm_compute; reflexivity|]. split; [vm_compute; reflexivity|]. split; [vm_compute; reflexivity|].
  split; [discriminate|]. intros h HI. cbn in HI. destruct HI as [<-|[<-|[]]]; split; try reflexivity; discriminate.
Qed.

(** Nor need the stack fail: the denial of a malformed line marked sufficient is disregarded. *)
Theorem malformed_line_stack_fails_refuted :
  exists fs s p', fs (lit "/etc/pam.d/login") = Some (text ["auth sufficient"; "auth required pam_permit.so"]%string) /\
    init_handlers fs some_symbol ex_dir None (lit "login") true = Ok (0, s) /\
    dispatch play 0 false 0 1 (mkD false (c_conf s) (c_other s) NOT_STACKED (dp_former (fresh_handle no_handlers []))
       (mkW (repeat [0] 40) (repeat (-1) (c_next s)) [] [])) = Ok (0, p').
Proof.
  exists (disk [("/etc/pam.d/login", ["auth sufficient"; "auth required pam_permit.so"])]%string).
  do 2 eexists. split; [vm_compute; reflexivity|]. split; [vm_compute; reflexivity|]. vm_compute. reflexivity.
Qed.

(** ** C16 *)

(** Loading gives PAM_SUCCESS exactly when the configuration is read without error, and fills every
    list with the entries of its table and type in the order of the configuration.  The second list of
    auth and session (for pam_setcred and pam_close_session) has the lines of the first, in the same
    order, except those whose module cannot be named. *)
Theorem stacks_hold_the_configured_entries : forall fs symbol mdir confdir service dir es good,
  configured (open_config fs confdir) service (fs (lit "/etc/pam.conf")) (uses_dir confdir dir) es good ->
  exists s, init_handlers fs symbol mdir confdir service dir = Ok (if good then 0 else 26, s) /\
    forall o ty,
      map body (list1 ty (table o s)) = map (entry_body symbol mdir (sym1 ty)) (entries_for o ty es) /\
      (forall sy, sym2 ty = Some sy ->
         map body (list2 ty (table o s)) = map (entry_body symbol mdir sy) (filter named (entries_for o ty es)) /\
         Forall2 pair_of (filter has_name (list1 ty (table o s))) (list2 ty (table o s))).
Proof.
  intros fs symbol mdir confdir service dir es good HC. eexists. split; [exact (init_run fs symbol mdir confdir service dir es good HC)|].
  assert (N1 : forall o ty, list1 ty (table o empty_cst) = []) by (intros [] []; reflexivity).
  assert (N2 : forall o ty, list2 ty (table o empty_cst) = []) by (intros [] []; reflexivity).
  intros o ty. split.
  - rewrite bodies1, N1. reflexivity.
  - intros sy E. split; [rewrite (bodies2 _ _ _ _ _ _ _ E), N2; reflexivity|]. eapply pairs; [exact E|]. rewrite N1, N2. constructor.
Qed.

(** Every configuration is read that way. *)
Theorem every_configuration_is_covered : forall fs confdir service dir,
  (forall f, fs (lit "/etc/pam.conf") = Some f -> from_getline f) ->
  exists es good, configured (open_config fs confdir) service (fs (lit "/etc/pam.conf")) (uses_dir confdir dir) es good.
Proof. intros fs confdir service dir HF. apply configured_total. intros f E. apply from_getline_like. auto. Qed.

(** No two entries share a cell of recorded answers, and the second entry made from a line looks at the
    cell of the first. *)
Theorem cells_are_distinct : forall fs symbol mdir confdir service dir rv s,
  (forall f, fs (lit "/etc/pam.conf") = Some f -> from_getline f) ->
  init_handlers fs symbol mdir confdir service dir = Ok (rv, s) ->
  Permutation (map h_cell (everything s)) (seq 0 (c_next s)).
Proof.
  intros fs symbol mdir confdir service dir rv s HF HI.
  destruct (configured_total fs confdir service dir) as (es & good & HC); [intros f E; apply from_getline_like; auto|].
  rewrite (init_run fs symbol mdir confdir service dir es good HC) in HI. injection HI as _ <-. apply cells_all.
Qed.

(** Files without inclusions and errors, spelled out.  A line's description: type, actions, module, arguments. *)
Definition reads (l : cstr) (d : mtype * list Z * cstr * list cstr) : Prop :=
  match d with (ty, tab, m, args) =>
    exists t c, mkargv l = t :: c :: m :: args /\ same_word t (type_name ty) /\ control_of c = Ok (CtlTable tab) /\ module_name (Some m) <> None
  end.
Definition plain_body (symbol : cstr -> string -> option nat) (mdir : cstr) (sy : string) (d : mtype * list Z * cstr * list cstr) :=
  match d with (ty, tab, m, args) =>
    (HT_MODULE, symbol (if is_prefix (lit "/") m then m else mdir ++ m) sy, tab, args,
     match module_name (Some m) with Some n => n | None => [] end, 0%nat)
  end.
Definition of_type (ty : mtype) (d : mtype * list Z * cstr * list cstr) : bool := match d with (t, _, _, _) => mtype_eqb t ty end.

Lemma plain_expands : forall opens service k lines ds o ok, Forall2 reads lines ds -> for_other service o ->
  expands opens service k (Some service) None 0 lines ok
    (map (fun d => match d with (ty, tab, m, args) => mkE o ty HT_MODULE tab (Some m) args 0 end) ds) ok.
Proof.
  intros opens service k lines ds o ok H HO. induction H as [|l d ls ds HR H IH]; [constructor|].
  destruct d as [[[ty tab] m] args]. destruct HR as (t & c & EW & ET & EC & EN). cbn [map].
  eapply X_entry; [apply con_known|left; reflexivity|exact HO| |reflexivity|exact EN|exact IH].
  rewrite EW. change args with (skipn 3 (t :: c :: m :: args)) at 2. eapply says_module; [apply ts_plain; exact ET|left; reflexivity|reflexivity|exact EC|reflexivity].
Qed.

Lemma plain_entries : forall o o' ty ds, entries_for o' ty (map (fun d => match d with (ty, tab, m, args) => mkE o ty HT_MODULE tab (Some m) args 0 end) ds)
  = if Bool.eqb o o' then map (fun d => match d with (ty, tab, m, args) => mkE o ty HT_MODULE tab (Some m) args 0 end) (filter (of_type ty) ds) else [].
Proof.
  intros o o' ty ds. induction ds as [|[[[t tab] m] args] ds IH]; [destruct (Bool.eqb o o'); reflexivity|].
  cbn [map]. rewrite entries_cons, IH. unfold mine. cbn [e_other e_type filter of_type]. destruct (Bool.eqb o o'); cbn [andb app]; [|reflexivity].
  destruct (mtype_eqb t ty); reflexivity.
Qed.

Lemma plain_file : forall fs symbol mdir confdir service f lines ds,
  ~ same_word service (lit "other") ->
  open_config fs confdir service = Some f -> open_config fs confdir (lit "other") = None ->
  file_lines c_space f = (lines, true) -> Forall2 reads lines ds ->
  exists s, init_handlers fs symbol mdir confdir service true = Ok (0, s) /\
    forall ty,
      map body (list1 ty (c_conf s)) = map (plain_body symbol mdir (sym1 ty)) (filter (of_type ty) ds) /\
      list1 ty (c_other s) = [] /\
      (forall sy, sym2 ty = Some sy ->
         map body (list2 ty (c_conf s)) = map (plain_body symbol mdir sy) (filter (of_type ty) ds) /\ list2 ty (c_other s) = []).
Proof.
  intros fs symbol mdir confdir service f lines ds HNO HF HG HL HR.
  assert (HO : for_other service false) by (split; [discriminate|contradiction]).
  set (es := map (fun d => match d with (ty, tab, m, args) => mkE false ty HT_MODULE tab (Some m) args 0 end) ds).
  assert (HC : configured (open_config fs confdir) service (fs (lit "/etc/pam.conf")) (uses_dir confdir true) es true).
  { replace (uses_dir confdir true) with true by (unfold uses_dir; destruct confdir; reflexivity).
    eapply conf_own; [exact HF| |right; exact HG]. exists lines, true. split; [exact HL|]. apply plain_expands; assumption. }
  destruct (stacks_hold_the_configured_entries fs symbol mdir confdir service true es true HC) as (s & HI & HB).
  assert (BD : forall sy l, map (entry_body symbol mdir sy) (map (fun d => match d with (ty, tab, m, args) => mkE false ty HT_MODULE tab (Some m) args 0 end) l)
     = map (plain_body symbol mdir sy) l).
  { intros sy l. rewrite map_map. apply map_ext. intros [[[t tab] m] args]. reflexivity. }
  exists s. split; [exact HI|]. intros ty. destruct (HB false ty) as [B1 B2]. destruct (HB true ty) as [O1 O2]. cbn [table] in *.
  unfold es in *. rewrite plain_entries in *. cbn [Bool.eqb] in *.
  split; [rewrite B1; apply BD|]. split; [apply (map_eq_nil body); exact O1|].
  intros sy E. split; [|apply (map_eq_nil body); exact (proj1 (O2 sy E))].
  rewrite (proj1 (B2 sy E)), <- BD. f_equal.
  assert (AN : forall d, In d ds -> named (match d with (ty, tab, m, args) => mkE false ty HT_MODULE tab (Some m) args 0 end) = true).
  { intros [[[t tab] m] args] HI0. apply named_nameable. clear -HI0 HR. induction HR as [|l d ls ds HR1 HR IH]; [destruct HI0|].
    destruct HI0 as [->|HI0]; [|auto]. destruct HR1 as (? & ? & _ & _ & _ & EN). exact EN. }
  clear -AN. induction ds as [|d ds IH]; [reflexivity|]. cbn [filter]. destruct (of_type ty d); cbn [map filter];
    [rewrite (AN d (or_introl eq_refl)); f_equal|]; apply IH; intros x HX; apply AN; right; exact HX.
Qed.

(** The stacks of a service whose file has only complete module lines are those lines, by type, in order. *)
Theorem plain_file_stacks : forall fs symbol mdir confdir service f lines ds,
  ~ same_word service (lit "other") ->
  open_config fs confdir service = Some f -> open_config fs confdir (lit "other") = None ->
  file_lines c_space f = (lines, true) -> Forall2 reads lines ds ->
  exists s, init_handlers fs symbol mdir confdir service true = Ok (0, s) /\
    map body (t_auth (c_conf s)) = map (plain_body symbol mdir "pam_sm_authenticate") (filter (of_type T_AUTH) ds) /\
    map body (t_setcred (c_conf s)) = map (plain_body symbol mdir "pam_sm_setcred") (filter (of_type T_AUTH) ds) /\
    map body (t_acct (c_conf s)) = map (plain_body symbol mdir "pam_sm_acct_mgmt") (filter (of_type T_ACCT) ds) /\
    map body (t_open (c_conf s)) = map (plain_body symbol mdir "pam_sm_open_session") (filter (of_type T_SESS) ds) /\
    map body (t_close (c_conf s)) = map (plain_body symbol mdir "pam_sm_close_session") (filter (of_type T_SESS) ds) /\
    map body (t_chauthtok (c_conf s)) = map (plain_body symbol mdir "pam_sm_chauthtok") (filter (of_type T_PASS) ds) /\
    c_other s = mkT [] [] [] [] [] [].
Proof.
  intros fs symbol mdir confdir service f lines ds HNO HF HG HL HR.
  destruct (plain_file fs symbol mdir confdir service f lines ds HNO HF HG HL HR) as (s & HI & HB). exists s. split; [exact HI|].
  destruct (HB T_AUTH) as (A1 & A2 & A3). destruct (HB T_SESS) as (S1 & S2 & S3). destruct (HB T_ACCT) as (C1 & C2 & _). destruct (HB T_PASS) as (P1 & P2 & _).
  destruct (A3 _ eq_refl) as [A4 A5]. destruct (S3 _ eq_refl) as [S4 S5]. cbn [list1 list2] in *.
  repeat (split; [assumption|]). destruct (c_other s). cbn in *. congruence.
Qed.

Example plain_file_ex :
  exists s, init_handlers (disk [("/etc/pam.d/su", ["auth sufficient pam_rootok.so"; "# comment"; "account required pam_unix.so"; "AUTH required \";
                                                     "  /opt/pam_x.so a [b c]"])]%string) some_symbol ex_dir None (lit "su") true = Ok (0, s) /\
   map h_name (t_auth (c_conf s)) = [lit "pam_rootok"; lit "pam_x"] /\ map h_args (t_setcred (c_conf s)) = [[]; [lit "a"; lit "b c"]] /\
   map h_func (t_auth (c_conf s)) = [Some 27; Some 13]%nat /\ length (t_acct (c_conf s)) = 1%nat /\ t_open (c_conf s) = [].
Proof. eexists. split; [vm_compute; reflexivity|]. repeat (split; [vm_compute; reflexivity|]). vm_compute; reflexivity. Qed.

(** The stack that runs for each function, and when that of "other" is taken. *)
Theorem other_only_when_own_is_empty : forall W (p : dpam W),
  let own := dp_conf p in let oth := dp_other p in
  let stack choice := stack_for p choice in
  let use a b := match a with [] => Some b | _ :: _ => Some a end : option (list handler) in
  stack 1 = use (t_auth own) (t_auth oth) /\ stack 2 = use (t_setcred own) (t_setcred oth) /\
  stack 3 = use (t_acct own) (t_acct oth) /\ stack 4 = use (t_open own) (t_open oth) /\
  stack 5 = use (t_close own) (t_close oth) /\ stack 6 = use (t_chauthtok own) (t_chauthtok oth) /\
  (forall c, ~ 1 <= c <= 6 -> stack c = None).
Proof.
  intros W p. unfold stack_for. repeat (split; [reflexivity|]). intros c H. cbv zeta.
  assert (E : forall t, pick t c = None).
  { intros t. unfold pick. repeat match goal with |- context [c =? ?n] => destruct (Z.eqb_spec c n); [lia|] end. reflexivity. }
  rewrite E. reflexivity.
Qed.

(** A file read by an inclusion contributes entries of the including line's type and service only, not
    deeper than the remaining room. *)
Theorem inclusions_contribute_one_type : forall opens service k this ty level file es good,
  included opens service k this ty level file es good ->
  forall e, In e es -> e_type e = ty /\ for_other this (e_other e) /\ (level <= e_level e < level + k)%nat.
Proof.
  intros opens service k this ty level file es good H e HI.
  destruct (proj2 (expands_fine opens service (fun _ => true) (fun _ _ => eq_refl)) _ _ _ _ _ _ _ H) as (F & Z0 & [A B]).
  specialize (A this eq_refl). specialize (B ty eq_refl). rewrite Forall_forall in A, B.
  split; [auto|]. split; [auto|]. destruct k as [|k]; [rewrite (Z0 eq_refl) in HI; destruct HI|].
  destruct (F (e_other e) (e_type e)) as [W _]. unfold sel in W. rewrite filter_true in W. rewrite Forall_forall in W.
  destruct (W e) as [L _]; [|cbn [pred] in L; lia].
  apply filter_In. split; [exact HI|]. rewrite eqb_reflx. rewrite (proj2 (mtype_eqb_spec _ _) eq_refl). reflexivity.
Qed.

Example includes_in_place_ex :
  exists s, init_handlers (disk [("/etc/pam.d/login", ["auth required pam_1.so"; "auth include base"; "auth required pam_4.so"; "account substack base"]);
                                 ("/etc/pam.d/base", ["auth required pam_2.so"; "account required pam_a.so"; "auth required pam_3.so"]);
                                 ("/etc/pam.d/other", ["auth required pam_deny.so"; "session required pam_deny.so"])]%string)
       some_symbol ex_dir None (lit "login") true = Ok (0, s) /\
   map h_name (t_auth (c_conf s)) = [lit "pam_1"; lit "pam_2"; lit "pam_3"; lit "pam_4"] /\
   map h_name (t_acct (c_conf s)) = [lit "base"; lit "pam_a"] /\ map h_level (t_acct (c_conf s)) = [0; 1]%nat /\
   map h_name (t_auth (c_other s)) = [lit "pam_deny"] /\ t_open (c_conf s) = [] /\ map h_name (t_open (c_other s)) = [lit "pam_deny"].
Proof. eexists. split; [vm_compute; reflexivity|]. repeat (split; [vm_compute; reflexivity|]). vm_compute; reflexivity. Qed.

(** The service "other" itself is an exception: its file is read twice and every line is in its stack
    twice (and none is in the table of the service). *)
Theorem lines_once_for_service_other_refuted :
  exists fs s, fs (lit "/etc/pam.d/other") = Some (text ["auth required pam_unix.so"]%string) /\
    init_handlers fs some_symbol ex_dir None (lit "other") true = Ok (0, s) /\
    t_auth (c_conf s) = [] /\ map h_name (t_auth (c_other s)) = [lit "pam_unix"; lit "pam_unix"].
Proof.
  exists (disk [("/etc/pam.d/other", ["auth required pam_unix.so"])]%string).
  eexists. split; [vm_compute; reflexivity|]. repeat (split; [vm_compute; reflexivity|]). vm_compute; reflexivity.
Qed.

(** ** C17 *)

Definition conf_dirs (confdir : option cstr) : list cstr :=
  match confdir with Some d => [d] | None => [lit "/etc/pam.d"; lit "/usr/lib/pam.d"] end.
Definition directly_in (d p : cstr) : Prop := exists n, p = d ++ lit "/" ++ n /\ ~ In "/"%char n.

Lemma after_last_clean : forall c s, ~ In c (after_last c s).
Proof.
  intros c s. induction s as [|x t IH]; [intros []|]. cbn [after_last].
  destruct (existsb (Ascii.eqb c) t) eqn:E; [exact IH|].
  assert (N : ~ In c t).
  { intros HI. assert (X : existsb (Ascii.eqb c) t = true) by (apply existsb_exists; exists c; split; [exact HI|apply Ascii.eqb_refl]). congruence. }
  destruct (Ascii.eqb_spec x c) as [->|NE]; [exact N|]. intros [HI|HI]; [congruence|exact (N HI)].
Qed.

Lemma tolower_slash : forall c, tolower c = "/"%char -> c = "/"%char.
Proof. intros [b0 b1 b2 b3 b4 b5 b6 b7] H. destruct b0, b1, b2, b3, b4, b5, b6, b7; vm_compute in H; try discriminate; reflexivity. Qed.

(** The file read for a service name given to pam_start is a name without '/' in one of the configuration directories. *)
Theorem started_service_stays_in_directory : forall fs confdir name f,
  open_config fs confdir (start_service name) = Some f ->
  exists d p, In d (conf_dirs confdir) /\ directly_in d p /\ fs p = Some f.
Proof.
  intros fs confdir name f H.
  assert (N : ~ In "/"%char (start_service name)).
  { intros HI. unfold start_service in HI. apply in_map_iff in HI. destruct HI as (c & E & HI). apply tolower_slash in E. subst c.
    exact (after_last_clean _ _ HI). }
  set (n := start_service name) in *. clearbody n.
  assert (G : match confdir with Some d => fs (d ++ lit "/" ++ n) | None => match fs (lit "/etc/pam.d/" ++ n) with Some f => Some f | None => fs (lit "/usr/lib/pam.d/" ++ n) end end = Some f).
  { destruct n as [|c n]; cbn [open_config] in H; [destruct confdir; rewrite ?app_nil_r; exact H|].
    destruct (Ascii.eqb_spec c c_slash) as [->|_]; [exfalso; apply N; left; reflexivity|exact H]. }
  clear H. destruct confdir as [d|]; cbn [conf_dirs].
  - exists d, (d ++ lit "/" ++ n). split; [left; reflexivity|]. split; [exists n; split; [reflexivity|exact N]|exact G].
  - destruct (fs (lit "/etc/pam.d/" ++ n)) as [g|] eqn:E.
    + exists (lit "/etc/pam.d"), (lit "/etc/pam.d/" ++ n). split; [left; reflexivity|]. split; [exists n; split; [reflexivity|exact N]|congruence].
    + exists (lit "/usr/lib/pam.d"), (lit "/usr/lib/pam.d/" ++ n). split; [right; left; reflexivity|]. split; [exists n; split; [reflexivity|exact N]|exact G].
Qed.

Example started_service_ex :
  start_service (lit "/usr/bin/../SU") = lit "su" /\
  open_config (disk [("/etc/pam.d/su", ["a"]); ("/usr/bin/../SU", ["b"])]%string) None (start_service (lit "/usr/bin/../SU")) = Some (text ["a"%string]).
Proof. split; vm_compute; reflexivity. Qed.

(** A service name given to pam_set_item can name any file. *)
Theorem set_service_stays_in_directory_refuted :
  exists fs confdir name f,
    open_config fs confdir (set_service name) = Some f /\
    forall d p, In d (conf_dirs confdir) -> directly_in d p -> fs p = None.
Proof.
  exists (disk [("/tmp/x", ["auth sufficient pam_permit.so"])]%string), None, (lit "/tmp/X"), (text ["auth sufficient pam_permit.so"%string]).
  split; [vm_compute; reflexivity|]. intros d p HD (n & -> & HN). cbn [conf_dirs In] in HD. destruct HD as [<-|[<-|[]]]; reflexivity.
Qed.

(** The file name of a module without directory and without the last extension. *)
Definition base_name (p n : cstr) : Prop :=
  exists dir ext, p = dir ++ n ++ ext /\ (dir = [] \/ exists d, dir = d ++ ["/"%char]) /\ ~ In "/"%char (n ++ ext) /\
    ((ext = [] /\ ~ In "."%char n) \/ exists e, ext = "."%char :: e /\ ~ In "."%char e).

Lemma existsb_in : forall c t, existsb (Ascii.eqb c) t = true <-> In c t.
Proof.
  intros c t. rewrite existsb_exists. split; [intros (x & HI & E); apply Ascii.eqb_eq in E; subst; exact HI|intros HI; exists c; split; [exact HI|apply Ascii.eqb_refl]].
Qed.

Lemma existsb_notin : forall c t, existsb (Ascii.eqb c) t = false <-> ~ In c t.
Proof. intros c t. rewrite <- existsb_in. destruct (existsb (Ascii.eqb c) t); split; intros H; congruence. Qed.

Lemma after_last_iff : forall c s r, after_last c s = r <-> (~ In c r /\ (s = r \/ exists d, s = d ++ c :: r)).
Proof.
  intros c s r. split.
  - intros <-. split; [apply after_last_clean|]. induction s as [|x t IH]; [left; reflexivity|]. cbn [after_last].
    destruct (existsb (Ascii.eqb c) t) eqn:E.
    + destruct IH as [IH|(d & IH)]; [|right; exists (x :: d); rewrite IH at 1; reflexivity].
      exfalso. apply existsb_in in E. rewrite IH in E. exact (after_last_clean _ _ E).
    + destruct (Ascii.eqb_spec x c) as [->|N]; [right; exists []; reflexivity|left; reflexivity].
  - intros (N & H). induction s as [|x t IH].
    + destruct H as [<-|(d & H)]; [reflexivity|destruct d; discriminate].
    + cbn [after_last]. destruct H as [<-|(d & H)].
      * cbn [In] in N. destruct (existsb (Ascii.eqb c) t) eqn:E; [apply existsb_in in E; tauto|].
        destruct (Ascii.eqb_spec x c); [exfalso; tauto|reflexivity].
      * destruct d as [|y d]; cbn [app] in H; injection H as -> ->.
        -- apply existsb_notin in N. rewrite N, Ascii.eqb_refl. reflexivity.
        -- assert (E : existsb (Ascii.eqb c) (d ++ c :: r) = true) by (apply existsb_in; apply in_or_app; right; left; reflexivity).
           rewrite E. apply IH. right. exists d. reflexivity.
Qed.

Lemma before_last_iff : forall c s r, before_last c s = r <-> ((s = r /\ ~ In c r) \/ exists e, s = r ++ c :: e /\ ~ In c e).
Proof.
  intros c s. induction s as [|x t IH]; intros r; cbn [before_last].
  - split; [intros <-; left; split; [reflexivity|intros []]|]. intros [[H _]|(e & H & _)]; [exact H|destruct r; discriminate].
  - destruct (existsb (Ascii.eqb c) t) eqn:E.
    + split.
      * intros <-. destruct (proj1 (IH _) eq_refl) as [[H N]|(e & H & N)].
        -- exfalso. apply existsb_in in E. rewrite H in E. contradiction.
        -- right. exists e. split; [cbn [app]; f_equal; exact H|exact N].
      * intros [[<- N]|(e & H & N)]; [exfalso; apply N; right; apply existsb_in; exact E|].
        destruct r as [|y r]; cbn [app] in H; injection H as -> H.
        -- exfalso. apply N. rewrite <- H. apply existsb_in. exact E.
        -- f_equal. apply IH. right. exists e. split; [exact H|exact N].
    + apply existsb_notin in E. destruct (Ascii.eqb_spec x c) as [->|NE].
      * split; [intros <-; right; exists t; split; [reflexivity|exact E]|].
        intros [[<- N]|(e & H & N)]; [exfalso; apply N; left; reflexivity|]. destruct r as [|y r]; [reflexivity|]. cbn [app] in H. injection H as _ H.
        exfalso. apply E. rewrite H. apply in_or_app. right. left. reflexivity.
      * split; [intros <-; left; split; [reflexivity|intros [H|H]; [congruence|contradiction]]|].
        intros [[H _]|(e & H & N)]; [exact H|]. exfalso. destruct r as [|y r]; cbn [app] in H; injection H as H1 H; [congruence|].
        apply E. rewrite H. apply in_or_app. right. left. reflexivity.
Qed.

(** A module has a name exactly if its base name is neither empty nor "?". *)
Theorem module_names : forall p n, module_name (Some p) = Some n <-> base_name p n /\ n <> [] /\ n <> lit "?".
Proof.
  intros p n. unfold module_name, extract_modulename.
  assert (B : before_last "."%char (after_last "/"%char p) = n <-> base_name p n).
  { rewrite before_last_iff. split.
    - intros H. assert (X : exists ext, after_last "/"%char p = n ++ ext /\ ((ext = [] /\ ~ In "."%char n) \/ exists e, ext = "."%char :: e /\ ~ In "."%char e)).
      { destruct H as [[H N]|(e & H & N)]; [exists []; rewrite app_nil_r; auto|exists ("."%char :: e); eauto]. }
      destruct X as (ext & X & C). apply after_last_iff in X. destruct X as (N & [X|(d & X)]).
      + exists [], ext. cbn [app]. auto.
      + exists (d ++ ["/"%char]), ext. rewrite <- app_assoc. cbn [app]. eauto 6.
    - intros (dir & ext & -> & HD & HN & HE).
      assert (X : after_last "/"%char (dir ++ n ++ ext) = n ++ ext).
      { apply after_last_iff. split; [exact HN|]. destruct HD as [->|(d & ->)]; [left; reflexivity|right; exists d; rewrite <- app_assoc; reflexivity]. }
      rewrite X. destruct HE as [[-> HE]|(e & -> & HE)]; [left; rewrite app_nil_r; auto|right; exists e; auto]. }
  rewrite <- B. generalize (before_last "."%char (after_last "/"%char p)) as r. intros [|c r].
  - split; [discriminate|]. intros (<- & N & _). congruence.
  - destruct (streq (c :: r) (lit "?")) eqn:E.
    + apply streq_eq in E. split; [discriminate|]. intros (<- & _ & N). congruence.
    + split.
      * intros H. injection H as <-. split; [reflexivity|]. split; [discriminate|]. intros X. apply streq_eq in X. congruence.
      * intros (<- & _). reflexivity.
Qed.
Example module_names_ex : base_name (lit "/lib/a.b/pam_x.y.so") (lit "pam_x.y") /\ module_name (Some (lit "/lib/a.b/pam_x.y.so")) = Some (lit "pam_x.y").
Proof.
  split; [|vm_compute; reflexivity]. exists (lit "/lib/a.b/"), (lit ".so"). split; [reflexivity|]. split; [right; exists (lit "/lib/a.b"); reflexivity|].
  split; [intros H; cbn in H; repeat (destruct H as [H|H]; [discriminate|]); exact H|]. right. exists (lit "so"). split; [reflexivity|].
  intros H; cbn in H; repeat (destruct H as [H|H]; [discriminate|]); exact H.
Qed.

(** Where a configuration file is looked for. *)
Theorem where_files_are_found : forall fs name,
  (forall confdir t, name = "/"%char :: t -> open_config fs confdir name = fs name) /\
  ((forall t, name <> "/"%char :: t) ->
    (forall d, open_config fs (Some d) name = fs (d ++ lit "/" ++ name)) /\
    (forall f, fs (lit "/etc/pam.d/" ++ name) = Some f -> open_config fs None name = Some f) /\
    (fs (lit "/etc/pam.d/" ++ name) = None -> open_config fs None name = fs (lit "/usr/lib/pam.d/" ++ name))).
Proof.
  intros fs name. split; [intros confdir t ->; reflexivity|]. intros N.
  destruct name as [|c name]; cbn [open_config].
  - split; [intros d; reflexivity|]. rewrite !app_nil_r. split; [intros f ->; reflexivity|intros ->; reflexivity].
  - destruct (Ascii.eqb_spec c c_slash) as [->|_]; [exfalso; apply (N name); reflexivity|].
    split; [reflexivity|]. split; [intros f ->; reflexivity|intros ->; reflexivity].
Qed.
Example where_files_are_found_ex :
  open_config (disk [("/usr/lib/pam.d/su", ["b"])]%string) None (lit "su") = Some (text ["b"%string]) /\
  open_config (disk [("/etc/pam.d/su", ["a"]); ("/usr/lib/pam.d/su", ["b"])]%string) None (lit "su") = Some (text ["a"%string]).
Proof. split; vm_compute; reflexivity. Qed.

(** Service names differing only in letter case, or in the directory given to pam_start, are the same. *)
Theorem service_names_ignore_case : forall a b, same_word a b -> set_service a = set_service b /\ start_service a = start_service b.
Proof.
  intros a b H. split; [exact H|]. unfold same_word, start_service in *. revert b H.
  assert (EX : forall a b, map tolower a = map tolower b -> existsb (Ascii.eqb "/"%char) a = existsb (Ascii.eqb "/"%char) b).
  { assert (EC : forall x y, tolower x = tolower y -> Ascii.eqb "/"%char x = Ascii.eqb "/"%char y).
    { intros x y E. destruct (Ascii.eqb_spec "/"%char x) as [<-|N1], (Ascii.eqb_spec "/"%char y) as [<-|N2]; try reflexivity.
      - exfalso. apply N2. symmetry. apply tolower_slash. rewrite <- E. reflexivity.
      - exfalso. apply N1. symmetry. apply tolower_slash. rewrite E. reflexivity. }
    induction a0 as [|x a0 IH]; intros [|y b] E; try discriminate; [reflexivity|]. cbn [map] in E. injection E as E1 E2.
    cbn [existsb]. rewrite (EC _ _ E1), (IH _ E2). reflexivity. }
  induction a as [|x a IH]; intros [|y b] H; try discriminate; [reflexivity|]. cbn [map] in H. injection H as H1 H2. cbn [after_last].
  rewrite (EX _ _ H2). destruct (existsb (Ascii.eqb "/"%char) b) eqn:E; [apply IH; exact H2|].
  assert (ES : Ascii.eqb x "/"%char = Ascii.eqb y "/"%char).
  { destruct (Ascii.eqb_spec x "/"%char) as [->|N1], (Ascii.eqb_spec y "/"%char) as [->|N2]; try reflexivity.
    - exfalso. apply N2. apply tolower_slash. rewrite <- H1. reflexivity.
    - exfalso. apply N1. apply tolower_slash. rewrite H1. reflexivity. }
  rewrite ES. destruct (Ascii.eqb y "/"%char); [exact H2|]. cbn [map]. rewrite H1, H2. reflexivity.
Qed.
Example service_names_ex : start_service (lit "SSHD") = lit "sshd" /\ set_service (lit "SshD") = lit "sshd".
Proof. split; reflexivity. Qed.

Print Assumptions loading_terminates.
Print Assumptions loaded_stacks_are_safe.
Print Assumptions failed_include_leaves_failure.
Print Assumptions malformed_line_denies.
Print Assumptions malformed_include_fails_refuted.
Print Assumptions malformed_line_stack_fails_refuted.
Print Assumptions stacks_hold_the_configured_entries.
Print Assumptions every_configuration_is_covered.
Print Assumptions cells_are_distinct.
Print Assumptions plain_file_stacks.
Print Assumptions other_only_when_own_is_empty.
Print Assumptions inclusions_contribute_one_type.
Print Assumptions lines_once_for_service_other_refuted.
Print Assumptions started_service_stays_in_directory.
Print Assumptions set_service_stays_in_directory_refuted.
Print Assumptions module_names.
Print Assumptions where_files_are_found.
Print Assumptions service_names_ignore_case.
