(** The loader puts on the stacks exactly the entries the configuration means. *)
From Coq Require Import String Ascii List Arith ZArith Lia Bool.
From Verif Require Import Base Dispatch_Model Ctl_Model Ctl_Props Tok_Model Tok_Proofs Line_Model Line_Proofs Line_Props Conf_Model Conf_Spec.
Import ListNotations.
Local Open Scope Z_scope.

(** ** Words of a line *)

Definition wd (n : option cstr) : list cstr := match n with None => [] | Some s => mkargv s end.

Lemma wd_step : forall n, match tokenize_next n with
  | (Some t, n') => wd n = t :: wd n'
  | (None, n') => wd n = [] /\ n' = None
  end.
Proof.
  intros [s|]; cbn [tokenize_next wd]; [|split; reflexivity].
  unfold mkargv. cbn [tokens tokenize_next]. destruct (tokenize s) as [[t n]|] eqn:E; [|split; reflexivity].
  f_equal. destruct n as [s'|]; cbn [wd].
  - unfold mkargv. apply tokens_fuel; [apply (tokenize_shorter _ _ _ E)|lia].
  - destruct (length s); reflexivity.
Qed.

Lemma strcaseeq_same : forall a b, strcaseeq a b = true <-> same_word a b.
Proof. intros a b. unfold strcaseeq, same_word. apply streq_eq. Qed.

Lemma strcaseeq_diff : forall a b, ~ same_word a b -> strcaseeq a b = false.
Proof. intros a b H. destruct (strcaseeq a b) eqn:E; auto. apply strcaseeq_same in E. contradiction. Qed.

Lemma same_word_sym : forall a b, same_word a b -> same_word b a.
Proof. intros a b H. unfold same_word in *. symmetry. exact H. Qed.

Lemma type_of_spec : forall w, match type_of w with
  | Some ty => same_word w (type_name ty)
  | None => forall t, ~ same_word w (type_name t)
  end.
Proof.
  intros w. unfold type_of.
  destruct (strcaseeq (lit "auth") w) eqn:A; [apply strcaseeq_same in A; apply same_word_sym; exact A|].
  destruct (strcaseeq (lit "session") w) eqn:B; [apply strcaseeq_same in B; apply same_word_sym; exact B|].
  destruct (strcaseeq (lit "account") w) eqn:C; [apply strcaseeq_same in C; apply same_word_sym; exact C|].
  destruct (strcaseeq (lit "password") w) eqn:D; [apply strcaseeq_same in D; apply same_word_sym; exact D|].
  intros t H. apply same_word_sym in H. apply strcaseeq_same in H. destruct t; cbn [type_name] in H; congruence.
Qed.

Lemma type_name_inj : forall w a b, same_word w (type_name a) -> same_word w (type_name b) -> a = b.
Proof.
  intros w a b HA HB. unfold same_word in *. rewrite HA in HB. destruct a, b; try reflexivity; discriminate HB.
Qed.

Lemma type_of_name : forall w ty, same_word w (type_name ty) -> type_of w = Some ty.
Proof.
  intros w ty H. pose proof (type_of_spec w) as S. destruct (type_of w) as [t|].
  - f_equal. exact (type_name_inj _ _ _ S H).
  - exfalso. exact (S ty H).
Qed.

Lemma dash_not_type : forall w t, ~ same_word ("-"%char :: w) (type_name t).
Proof. intros w t H. unfold same_word in H. destruct t; discriminate H. Qed.

Lemma type_field_says : forall req tok ty kind, type_says req tok ty kind <-> type_field req tok = (ty, kind).
Proof.
  intros req tok ty kind. split; intros H.
  - destruct H as [w ty H|w ty H|ty ->|w ty -> H1 H2]; cbn [type_field].
    + destruct w as [|c w]; [rewrite (type_of_name _ _ H); reflexivity|].
      destruct (Ascii.eqb_spec c "-"%char) as [->|N]; [exfalso; exact (dash_not_type _ _ H)|]. rewrite (type_of_name _ _ H); reflexivity.
    + cbn. rewrite (type_of_name _ _ H); reflexivity.
    + reflexivity.
    + destruct w as [|c w].
      * pose proof (type_of_spec []) as S. destruct (type_of []) as [t|]; [exfalso; exact (H1 t S)|reflexivity].
      * destruct (Ascii.eqb_spec c "-"%char) as [->|N].
        -- pose proof (type_of_spec w) as S. destruct (type_of w) as [t|]; [exfalso; exact (H2 t w eq_refl S)|reflexivity].
        -- pose proof (type_of_spec (c :: w)) as S. destruct (type_of (c :: w)) as [t|]; [exfalso; exact (H1 t S)|reflexivity].
  - destruct tok as [w|]; cbn [type_field] in H; [|injection H as <- <-; apply ts_missing; reflexivity].
    destruct w as [|c w].
    + pose proof (type_of_spec []) as S. destruct (type_of []) as [t|]; injection H as <- <-; [apply ts_plain; exact S|].
      apply ts_illegal; [reflexivity|exact S|discriminate].
    + destruct (Ascii.eqb_spec c "-"%char) as [->|N].
      * pose proof (type_of_spec w) as S. destruct (type_of w) as [t|]; injection H as <- <-; [apply ts_dash; exact S|].
        apply ts_illegal; [reflexivity|apply dash_not_type|]. intros t w' E. injection E as <-. apply S.
      * pose proof (type_of_spec (c :: w)) as S. destruct (type_of (c :: w)) as [t|]; injection H as <- <-; [apply ts_plain; exact S|].
        apply ts_illegal; [reflexivity|exact S|]. intros t w' E. injection E as E _. contradiction.
Qed.

Lemma mtype_eqb_spec : forall a b, mtype_eqb a b = true <-> a = b.
Proof. intros [] []; cbn; split; intros H; try reflexivity; try discriminate. Qed.

(** A line with at least one word. *)
Definition has_word (l : cstr) : Prop := mkargv l <> [].

(** Lines delivered by the assembler have a word. *)
Definition getline_like (line : list ascii) : Prop := forall a b, line = a ++ c_nl :: b -> b = [].

Lemma skip_blank_head : forall s, match skip_blank s with c :: _ => is_blank c = false | [] => True end.
Proof. induction s as [|c s IH]; cbn [skip_blank]; [exact I|]. destruct (is_blank c) eqn:E; [exact IH|exact E]. Qed.

Lemma skip_blank_suffix : forall s, exists w, s = w ++ skip_blank s.
Proof.
  induction s as [|c s (w & IH)]; [exists []; reflexivity|]. cbn [skip_blank]. destruct (is_blank c); [exists (c :: w); cbn [app]; f_equal; exact IH|exists []; reflexivity].
Qed.

Lemma cut_head : forall s, match cut_comment s with
  | c :: _ => c = NUL \/ match s with d :: _ => c = d | [] => False end
  | [] => True end.
Proof.
  intros [|c s]; cbn [cut_comment]; [exact I|]. destruct (Ascii.eqb c NUL); [right; reflexivity|].
  destruct (Ascii.eqb c c_hash); [left; reflexivity|right; reflexivity].
Qed.

Lemma prepare_head : forall line, getline_like line ->
  match prepare c_space line with
  | (eol, c :: _) => is_blank c = false /\ (eol = false -> c <> c_nl)
  | _ => True
  end.
Proof.
  intros line HG. unfold prepare.
  assert (A : forall x (eol : bool), (eol = false -> forall w c t, x = w ++ c :: t -> c <> c_nl) ->
    match cut_comment (skip_blank x) with c :: _ => is_blank c = false /\ (eol = false -> c <> c_nl) | [] => True end).
  { intros x eol HX. pose proof (cut_head (skip_blank x)) as H. pose proof (skip_blank_head x) as B. destruct (skip_blank_suffix x) as (w & E).
    destruct (cut_comment (skip_blank x)) as [|c t]; [exact I|]. destruct H as [->|H]; [split; [reflexivity|discriminate]|].
    destruct (skip_blank x) as [|d u]; [destruct H|]. subst d. split; [exact B|]. intros EE. eapply HX; [exact EE|exact E]. }
  destruct (unescnl c_space line) as [l|] eqn:EU; [|apply A; discriminate].
  apply A. intros _ w c t E. unfold unescnl in EU. destruct (back_scan_suffix (rev line)) as (tr & ER & _).
  destruct (back_scan (rev line)) as [|b r]; [discriminate|]. destruct (Ascii.eqb_spec b c_bslash) as [->|]; [|discriminate].
  change (Ascii.eqb c_space NUL) with false in EU. cbv iota in EU. injection EU as EU.
  assert (EL : line = rev r ++ c_bslash :: rev tr).
  { rewrite <- (rev_involutive line), ER, rev_app_distr. cbn [rev]. rewrite <- app_assoc. reflexivity. }
  intros ->. rewrite E in EU.
  destruct (@exists_last _ (c_nl :: t)) as (t' & z & EZ); [discriminate|].
  assert (EX : rev r = w ++ t' /\ c_space = z) by (apply app_inj_tail; rewrite EU, EZ, <- app_assoc; reflexivity).
  destruct EX as [EX <-]. destruct t' as [|y t']; [discriminate EZ|]. injection EZ as <- EZ.
  rewrite EX, <- app_assoc in EL. cbn [app] in EL. apply HG in EL. destruct t'; discriminate.
Qed.

Lemma assemble_head : forall f asm going s rest, Forall getline_like f ->
  match asm with Some (c :: _) => is_blank c = false /\ c <> c_nl | Some [] => False | None => True end ->
  assemble c_space f asm going = LLine s rest ->
  Forall getline_like rest /\ match s with c :: _ => is_blank c = false /\ c <> c_nl | [] => False end.
Proof.
  induction f as [|l f IH]; intros asm going s rest HF HA H; cbn [assemble] in H; [destruct going; discriminate|].
  pose proof (prepare_head l (Forall_inv HF)) as HP. pose proof (Forall_inv_tail HF) as HF'.
  destruct (prepare c_space l) as [eol seg]. destruct eol.
  - destruct (buf_valid (buf_add_eol asm seg)) eqn:EV; [|exact (IH None _ _ _ HF' I H)]. injection H as <- <-. split; [exact HF'|].
    destruct asm as [[|c a]|]; [destruct HA| |].
    + destruct seg as [|x y]; cbn [buf_add_eol buf_add app cpart buf_valid] in *; destruct (Ascii.eqb c NUL); try discriminate; exact HA.
    + destruct seg as [|x y]; cbn [buf_add_eol] in *; [discriminate|]. destruct (Ascii.eqb x NUL || Ascii.eqb x c_nl) eqn:EX; [discriminate|].
      cbn [buf_add buf_valid cpart] in *. destruct (Ascii.eqb x NUL); [discriminate|]. split; [tauto|]. cbn [orb] in EX. intros ->. discriminate EX.
  - apply (IH (buf_add asm seg) true s rest HF'); [|exact H]. destruct seg as [|x y]; cbn [buf_add]; [exact HA|].
    destruct asm as [[|c a]|]; [destruct HA|exact HA|]. destruct HP as [P1 P2]. split; [exact P1|exact (P2 eq_refl)].
Qed.

Lemma head_has_word : forall s, match s with c :: _ => is_blank c = false /\ c <> c_nl | [] => False end -> has_word s.
Proof.
  intros [|c s] H; [destruct H|]. destruct H as [H1 H2]. unfold has_word, mkargv. cbn [tokens tokenize_next]. unfold tokenize.
  assert (ED : is_delim c = false).
  { unfold is_delim. unfold is_blank in H1. apply orb_false_iff in H1. destruct H1 as [A B]. rewrite A, B.
    destruct (Ascii.eqb_spec c c_nl); [contradiction|reflexivity]. }
  cbn [drop_delims]. rewrite ED.
  destruct (if Ascii.eqb c c_lbr then take_bracket s else take_word (c :: s)). discriminate.
Qed.

Lemma file_lines_words : forall f ls ok, Forall getline_like f -> file_lines c_space f = (ls, ok) -> Forall has_word ls.
Proof.
  intros f ls ok. unfold file_lines. generalize (S (length f)) as n. intros n. revert f ls ok.
  induction n as [|n IH]; intros f ls ok HF H; cbn [all_lines_fuel] in H; [injection H as <- _; constructor|].
  destruct (assemble c_space f None false) as [|s rest|] eqn:E; [injection H as <- _; constructor| |injection H as <- _; constructor].
  destruct (all_lines_fuel n c_space rest) as [l b] eqn:EA. injection H as <- _.
  destruct (assemble_head _ None _ _ _ HF I E) as [HR HS]. constructor; [apply head_has_word; exact HS|exact (IH _ _ _ HR EA)].
Qed.

Section P.
Variable fs : cstr -> option (list (list ascii)).
Variable symbol : cstr -> string -> option nat.
Variable module_dir : cstr.
Variable confdir : option cstr.
Variable service : cstr.
Notation add := (add_handler symbol module_dir).
Notation opens := (open_config fs confdir).
Notation load := (load_conf fs symbol module_dir confdir service).
Notation pline := (parse_line symbol module_dir service).
Notation plines := (parse_lines symbol module_dir service).
Notation expands := (expands opens service).
Notation included := (included opens service).

(** Adding an entry. *)
Definition put (s : cst) (e : entry) : cst :=
  snd (add (e_kind e) (e_other e) (e_level e) (e_type e) (e_actions e) (e_module e) (e_args e) s).

Lemma add_put : forall kind o level ty tab m args s,
  add kind o level ty tab m args s = (named (mkE o ty kind tab m args level), put s (mkE o ty kind tab m args level)).
Proof.
  intros. unfold put. cbn [e_kind e_other e_level e_type e_actions e_module e_args].
  assert (E : fst (add kind o level ty tab m args s) = named (mkE o ty kind tab m args level)).
  { unfold named, add_handler, module_name. cbn [e_module].
    destruct (extract_modulename match m with Some p => p | None => unknown_module end); [|reflexivity]. destruct (sym2 ty); reflexivity. }
  rewrite <- E. destruct (add kind o level ty tab m args s); reflexivity.
Qed.

Lemma named_nameable : forall e, named e = true <-> nameable e.
Proof. intros e. unfold named, nameable. destruct (module_name (e_module e)); split; intros H; auto; congruence. Qed.

Lemma fail_named : forall o ty level, named (fail_entry o ty level) = true.
Proof. reflexivity. Qed.

Lemma add_marker : forall o level ty file s,
  add HT_SUBSTACK o level ty (all_actions ACT_UNDEF) file [] s = (named (marker o ty level file), put s (marker o ty level file)).
Proof. intros. apply add_put. Qed.

Definition act (ld : option cstr -> cstr -> mtype -> nat -> cst -> res (bool * cst)) (this : cstr) (o : bool) (level : nat)
  (m : meaning) (s : cst) : res (bool * cst) :=
  match m with
  | Nothing => Ok (true, s)
  | Entry ty kind tab mo args => Ok (add kind o level ty tab mo args s)
  | Inclusion ty sub file =>
      let (ok, s) := if sub : bool then add HT_SUBSTACK o level ty (all_actions ACT_UNDEF) file [] s else (true, s) in
      if ok then
        bind (ld file this ty (if sub then S level else level) s) (fun '(ok, s) =>
        if ok : bool then Ok (true, s)
        else Ok (add HT_MUST_FAIL o level ty (all_actions ACT_BAD) None [] s))
      else Ok (false, s)
  end.

Lemma for_other_val : forall s o, for_other s o -> strcaseeq s (lit "other") = o.
Proof.
  intros s o H. unfold for_other in H. destruct o.
  - apply strcaseeq_same. tauto.
  - apply strcaseeq_diff. intros X. apply H in X. discriminate.
Qed.

Lemma for_other_ex : forall s, for_other s (strcaseeq s (lit "other")).
Proof. intros s. unfold for_other. apply strcaseeq_same. Qed.

Lemma wanted_val : forall s, (strcaseeq s service || strcaseeq s (lit "other") = true) <-> wanted service s.
Proof. intros s. unfold wanted. rewrite orb_true_iff, !strcaseeq_same. reflexivity. Qed.

(** Everything after the service field. *)
Definition rest_of_line ld req level this (next : option cstr) (s : cst) : res (bool * cst) :=
    let other := strcaseeq this (lit "other") in
    if negb (strcaseeq this service || other) then Ok (true, s)
    else
    let (tok, next) := tokenize_next next in
    let (ty, ht) := type_field req tok in
    if match req with Some r => negb (mtype_eqb ty r) | None => false end then Ok (true, s)
    else
    let (tok, next) := tokenize_next next in
    let ht := match tok with None => HT_MUST_FAIL | Some _ => ht end in
    bind (match tok with None => Ok (CtlTable (all_actions ACT_BAD)) | Some t => control_of t end) (fun ctl =>
    let (tok, next) := tokenize_next next in
    match ctl with
    | CtlInclude => act ld this other level (Inclusion ty false tok) s
    | CtlSubstack => act ld this other level (Inclusion ty true tok) s
    | CtlTable tab =>
        let args := match next with Some n => mkargv n | None => [] end in
        match tok with
        | Some m => Ok (add ht other level ty tab (Some m) args s)
        | None => Ok (add HT_MUST_FAIL other level ty tab None args s)
        end
    end).

Lemma pline_rest : forall ld known req level line s, pline ld known req level line s =
  match (match known with Some k => (Some k, Some line) | None => tokenize_next (Some line) end) with
  | (None, _) => UB
  | (Some this, next) => rest_of_line ld req level this next s
  end.
Proof. reflexivity. Qed.

Lemma rest_foreign : forall ld req level this next s, ~ wanted service this -> rest_of_line ld req level this next s = Ok (true, s).
Proof.
  intros. unfold rest_of_line. destruct (strcaseeq this service || strcaseeq this (lit "other")) eqn:E; [apply wanted_val in E; contradiction|reflexivity].
Qed.

Lemma rest_says : forall ld req level this o next s m, wanted service this -> for_other this o -> says req (wd next) m ->
  rest_of_line ld req level this next s = act ld this o level m s.
Proof.
  intros ld req level this o next s m HW HO HS. unfold rest_of_line. apply wanted_val in HW. rewrite HW, (for_other_val _ _ HO). cbn [negb].
  pose proof (wd_step next) as W0. destruct (tokenize_next next) as [t0 n0].
  assert (N0 : nth_error (wd next) 0 = t0).
  { destruct t0; [rewrite W0; reflexivity|destruct W0 as [-> _]; reflexivity]. }
  assert (TF : forall ty kind, type_says req (nth_error (wd next) 0) ty kind -> type_field req t0 = (ty, kind)).
  { intros ty kind H. rewrite N0 in H. apply type_field_says. exact H. }
  assert (RQ : forall ty, (req = None \/ req = Some ty) -> match req with Some r => negb (mtype_eqb ty r) | None => false end = false).
  { intros ty [->| ->]; [reflexivity|]. rewrite (proj2 (mtype_eqb_spec ty ty) eq_refl). reflexivity. }
  pose proof (wd_step n0) as W1.
  assert (N1 : nth_error (wd next) 1 = fst (tokenize_next n0)).
  { destruct t0 as [t|].
    - rewrite W0. cbn [nth_error]. destruct (tokenize_next n0) as [[t1|] n1]; cbn [fst]; [rewrite W1; reflexivity|destruct W1 as [-> _]; reflexivity].
    - destruct W0 as [-> ->]. reflexivity. }
  assert (W2 : match snd (tokenize_next n0) with n1 => nth_error (wd next) 2 = fst (tokenize_next n1) /\ wd (snd (tokenize_next n1)) = skipn 3 (wd next) end).
  { destruct t0 as [t|].
    - rewrite W0. cbn [nth_error skipn]. destruct (tokenize_next n0) as [[t1|] n1]; cbn [fst snd].
      + rewrite W1. cbn [nth_error skipn]. pose proof (wd_step n1) as W2. destruct (tokenize_next n1) as [[t2|] n2]; cbn [fst snd].
        * rewrite W2. split; reflexivity.
        * destruct W2 as [-> ->]. split; reflexivity.
      + destruct W1 as [-> ->]. split; reflexivity.
    - destruct W0 as [-> ->]. cbn. split; reflexivity. }
  destruct (tokenize_next n0) as [t1 n1]. cbn [fst snd] in *. destruct W2 as [N2 N3].
  destruct (tokenize_next n1) as [t2 n2] eqn:E2. cbn [fst snd] in *.
  assert (W2' : t2 = None -> n2 = None).
  { intros ->. pose proof (wd_step n1) as X. rewrite E2 in X. tauto. }
  destruct HS as [ty kind r HT HR HN|ty kind HT HR H1|ty kind c tab HT HR H1 HC H2|ty kind c tab m HT HR H1 HC H2|ty kind c HT HR H1 HC|ty kind c HT HR H1 HC].
  - rewrite (TF _ _ HT), HR. destruct (mtype_eqb ty r) eqn:E; [apply mtype_eqb_spec in E; congruence|]. reflexivity.
  - rewrite (TF _ _ HT), (RQ _ HR). rewrite N1 in H1. subst t1. cbn [bind]. destruct W1 as [_ ->]. cbn in E2. injection E2 as <- <-. reflexivity.
  - rewrite (TF _ _ HT), (RQ _ HR). rewrite N1 in H1. subst t1. rewrite HC. cbn [bind]. rewrite N2 in H2. subst t2. rewrite (W2' eq_refl). reflexivity.
  - rewrite (TF _ _ HT), (RQ _ HR). rewrite N1 in H1. subst t1. rewrite HC. cbn [bind]. rewrite N2 in H2. subst t2. cbn [act]. rewrite <- N3. reflexivity.
  - rewrite (TF _ _ HT), (RQ _ HR). rewrite N1 in H1. subst t1. rewrite HC. cbn [bind]. rewrite N2. reflexivity.
  - rewrite (TF _ _ HT), (RQ _ HR). rewrite N1 in H1. subst t1. rewrite HC. cbn [bind]. rewrite N2. reflexivity.
Qed.

Lemma concerns_line : forall ld known req level l this ws s, concerns known (mkargv l) this ws ->
  exists next, wd next = ws /\ pline ld known req level l s = rest_of_line ld req level this next s.
Proof.
  intros ld known req level l this ws s H. rewrite pline_rest. remember (mkargv l) as w eqn:E. destruct H as [k w|k w].
  - exists (Some l). split; [symmetry; exact E|reflexivity].
  - pose proof (wd_step (Some l)) as W. cbn [wd] in W. destruct (tokenize_next (Some l)) as [[t|] n].
    + rewrite <- E in W. injection W as -> ->. exists n. split; reflexivity.
    + destruct W as [W _]. rewrite <- E in W. discriminate.
Qed.

Lemma line_says : forall ld known req level l this ws o m s, concerns known (mkargv l) this ws -> wanted service this ->
  for_other this o -> says req ws m -> pline ld known req level l s = act ld this o level m s.
Proof.
  intros ld known req level l this ws o m s HC HW HO HS. destruct (concerns_line ld known req level l this ws s HC) as (next & <- & ->).
  apply rest_says; assumption.
Qed.

(** ** From the relation to the function *)

Lemma expands_run :
  (forall k known req level lines ok es good, expands k known req level lines ok es good ->
    forall s, plines (load k) known req level lines ok s = Ok (good, fold_left put es s)) /\
  (forall k this ty level file es good, included k this ty level file es good ->
    forall s, load k file this ty level s = Ok (good, fold_left put es s)).
Proof.
  apply expands_included.
  - reflexivity.
  - intros k known req level l ls ok es good this ws HC HW HX IH s. cbn [parse_lines].
    destruct (concerns_line (load k) known req level l this ws s HC) as (next & _ & ->). rewrite rest_foreign by assumption. cbn [bind]. apply IH.
  - intros k known req level l ls ok es good this ws HC HW HS HX IH s. cbn [parse_lines].
    rewrite (line_says _ _ _ _ _ _ _ _ _ _ HC HW (for_other_ex this) HS). cbn [act bind]. apply IH.
  - intros k known req level l ls ok es good this ws o ty kind tab m args e HC HW HO HS -> HN HX IH s. cbn [parse_lines].
    rewrite (line_says _ _ _ _ _ _ _ _ _ _ HC HW HO HS). cbn [act]. rewrite add_put. rewrite (proj2 (named_nameable _) HN). cbn [bind fold_left]. apply IH.
  - intros k known req level l ls ok this ws o ty kind tab m args e HC HW HO HS -> HN s. cbn [parse_lines].
    rewrite (line_says _ _ _ _ _ _ _ _ _ _ HC HW HO HS). cbn [act]. rewrite add_put.
    destruct (named (mkE o ty kind tab m args level)) eqn:E; [apply named_nameable in E; contradiction|]. reflexivity.
  - intros k known req level l ls ok this ws o ty file es1 g1 es2 good HC HW HO HS HI IHI HX IH s. cbn [parse_lines].
    rewrite (line_says _ _ _ _ _ _ _ _ _ _ HC HW HO HS). cbn [act]. rewrite IHI. cbn [bind]. rewrite !fold_left_app.
    destruct g1; cbn [bind fold_left]; [apply IH|]. rewrite add_put. exact (IH (put _ (fail_entry o ty level))).
  - intros k known req level l ls ok this ws o ty file es1 g1 es2 good HC HW HO HS HN HI IHI HX IH s. cbn [parse_lines].
    rewrite (line_says _ _ _ _ _ _ _ _ _ _ HC HW HO HS). cbn [act]. rewrite add_marker.
    rewrite (proj2 (named_nameable _) HN). rewrite IHI. cbn [bind fold_left]. rewrite !fold_left_app.
    destruct g1; cbn [bind fold_left]; [apply IH|]. rewrite add_put. exact (IH (put _ (fail_entry o ty level))).
  - intros k known req level l ls ok this ws o ty file HC HW HO HS HN s. cbn [parse_lines].
    rewrite (line_says _ _ _ _ _ _ _ _ _ _ HC HW HO HS). cbn [act]. rewrite add_marker.
    destruct (named (marker o ty level file)) eqn:E; [apply named_nameable in E; contradiction|]. reflexivity.
  - reflexivity.
  - intros [|k] this ty level s; reflexivity.
  - intros [|k] this ty level file HF s; cbn [load_conf]; [reflexivity|]. rewrite HF. reflexivity.
  - intros k this ty level file f ls ok es good HF HL HX IH s. cbn [load_conf]. rewrite HF, HL. apply IH.
Qed.

(** ** Every configuration has a meaning *)

Lemma says_total : forall req ws, exists m, says req ws m.
Proof.
  intros req ws. destruct (type_field req (nth_error ws 0)) as [ty kind] eqn:ET. apply type_field_says in ET.
  assert (D : (req = None \/ req = Some ty) \/ exists r, req = Some r /\ r <> ty).
  { destruct req as [r|]; [|left; left; reflexivity]. destruct (mtype_eqb ty r) eqn:E; [apply mtype_eqb_spec in E; subst; left; right; reflexivity|].
    right. exists r. split; [reflexivity|]. intros ->. rewrite (proj2 (mtype_eqb_spec ty ty) eq_refl) in E. discriminate. }
  destruct D as [HR|(r & HR & HN)]; [|eexists; eapply says_nothing; eassumption].
  destruct (nth_error ws 1) as [c|] eqn:E1; [|eexists; eapply says_nocontrol; eassumption].
  destruct (control_total c) as (ctl & EC & _). destruct ctl as [tab| |].
  - destruct (nth_error ws 2) as [m|] eqn:E2; eexists; [eapply says_module|eapply says_nomodule]; eassumption.
  - eexists. eapply says_include; eassumption.
  - eexists. eapply says_substack; eassumption.
Qed.

Lemma wanted_dec : forall s, wanted service s \/ ~ wanted service s.
Proof.
  intros s. destruct (strcaseeq s service || strcaseeq s (lit "other")) eqn:E; [left; apply wanted_val; exact E|].
  right. intros H. apply wanted_val in H. congruence.
Qed.

Lemma nameable_dec : forall e, nameable e \/ ~ nameable e.
Proof. intros e. unfold nameable. destruct (module_name (e_module e)); [left; discriminate|right; intros H; apply H; reflexivity]. Qed.

Lemma expands_total_step : forall k, (forall this ty level file, exists es good, included k this ty level file es good) ->
  forall known req level lines ok, (known = None -> Forall has_word lines) ->
  exists es good, expands k known req level lines ok es good.
Proof.
  intros k HI known req level lines ok. induction lines as [|l ls IH]; intros HW; [exists [], ok; constructor|].
  assert (HW' : known = None -> Forall has_word ls) by (intros X; exact (Forall_inv_tail (HW X))).
  destruct (IH HW') as (es & good & HX).
  assert (HC : exists this ws, concerns known (mkargv l) this ws).
  { destruct known as [kn|]; [eexists _, _; constructor|]. pose proof (Forall_inv (HW eq_refl)) as X. unfold has_word in X.
    destruct (mkargv l) as [|a ws]; [congruence|]. eexists _, _; constructor. }
  destruct HC as (this & ws & HC). destruct (wanted_dec this) as [HWn|HWn]; [|eexists _, _; eapply X_foreign; eassumption].
  pose proof (for_other_ex this) as HO. set (o := strcaseeq this (lit "other")) in *. clearbody o.
  destruct (says_total req ws) as (m & HS). destruct m as [|ty kind tab m args|ty [|] file].
  - eexists _, _; eapply X_nothing; eassumption.
  - destruct (nameable_dec (mkE o ty kind tab m args level)) as [HN|HN]; eexists _, _; [eapply X_entry|eapply X_noname]; try eassumption; reflexivity.
  - destruct (nameable_dec (marker o ty level file)) as [HN|HN]; [|eexists _, _; eapply X_substack_noname; eassumption].
    destruct (HI this ty (S level) file) as (es1 & g1 & HI1). eexists _, _; eapply X_substack; eassumption.
  - destruct (HI this ty level file) as (es1 & g1 & HI1). eexists _, _; eapply X_include; eassumption.
Qed.

Lemma included_total : forall k this ty level file, exists es good, included k this ty level file es good.
Proof.
  induction k as [|k IH]; intros this ty level file; [eexists _, _; constructor|].
  destruct file as [file|]; [|eexists _, _; constructor]. destruct (opens file) as [f|] eqn:EF; [|eexists _, _; eapply I_unreadable; eassumption].
  destruct (file_lines c_space f) as [ls ok] eqn:EL.
  destruct (expands_total_step k IH (Some this) (Some ty) level ls ok) as (es & good & HX); [discriminate|].
  eexists _, _; eapply I_file; eassumption.
Qed.

Lemma expands_total : forall k known req level lines ok, (known = None -> Forall has_word lines) ->
  exists es good, expands k known req level lines ok es good.
Proof. intros k. apply expands_total_step. apply included_total. Qed.

Lemma file_gives_run : forall known f s es good, file_gives opens service known f es good ->
  parse_conf fs symbol module_dir confdir service known f s = Ok (good, fold_left put es s).
Proof.
  intros known f s es good (ls & ok & EL & HX). unfold parse_conf. rewrite EL. apply expands_run. exact HX.
Qed.

Lemma file_gives_total : forall known f, (known = None -> Forall getline_like f) -> exists es good, file_gives opens service known f es good.
Proof.
  intros known f HF. destruct (file_lines c_space f) as [ls ok] eqn:EL.
  destruct (expands_total 15 known None 0 ls ok) as (es & good & HX); [intros X; exact (file_lines_words _ _ _ (HF X) EL)|].
  exists es, good, ls, ok. split; assumption.
Qed.

Definition uses_dir (dir : bool) : bool := match confdir with Some _ => true | None => dir end.

Lemma init_run : forall dir es good, configured opens service (fs (lit "/etc/pam.conf")) (uses_dir dir) es good ->
  init_handlers fs symbol module_dir confdir service dir =
  Ok (if good then PAM_SUCCESS else PAM_ABORT, fold_left put es empty_cst).
Proof.
  intros dir es good H. unfold init_handlers. fold (uses_dir dir). destruct H as [H1 H2|f es good H1 HF HO|g es good H1 H2 HF|f g es1 es2 good H1 HF H2 HG|f es good H1 HF|H1].
  - rewrite H1. cbn [bind]. rewrite H2. reflexivity.
  - rewrite H1, (file_gives_run _ _ _ _ _ HF). cbn [bind]. destruct good; [|reflexivity]. destruct HO as [HO|HO]; [discriminate|]. rewrite HO. reflexivity.
  - rewrite H1. cbn [bind]. rewrite H2, (file_gives_run _ _ _ _ _ HF). cbn [bind]. destruct good; reflexivity.
  - rewrite H1, (file_gives_run _ _ _ _ _ HF). cbn [bind]. rewrite H2, (file_gives_run _ _ _ _ _ HG). cbn [bind].
    rewrite fold_left_app. destruct good; reflexivity.
  - rewrite H1, (file_gives_run _ _ _ _ _ HF). cbn [bind]. destruct good; reflexivity.
  - rewrite H1. reflexivity.
Qed.

Lemma configured_total : forall dir, (forall f, fs (lit "/etc/pam.conf") = Some f -> Forall getline_like f) ->
  exists es good, configured opens service (fs (lit "/etc/pam.conf")) (uses_dir dir) es good.
Proof.
  intros dir HF. destruct (uses_dir dir).
  - destruct (opens service) as [f|] eqn:E1.
    + destruct (file_gives_total (Some service) f) as (es1 & g1 & H1); [discriminate|].
      destruct g1; [|eexists _, _; eapply conf_own; [eassumption|eassumption|left; reflexivity]].
      destruct (opens (lit "other")) as [g|] eqn:E2; [|eexists _, _; eapply conf_own; [eassumption|eassumption|right; assumption]].
      destruct (file_gives_total (Some (lit "other")) g) as (es2 & g2 & H2); [discriminate|].
      eexists _, _; eapply conf_both; eassumption.
    + destruct (opens (lit "other")) as [g|] eqn:E2; [|eexists _, _; eapply conf_none; eassumption].
      destruct (file_gives_total (Some (lit "other")) g) as (es2 & g2 & H2); [discriminate|].
      eexists _, _; eapply conf_other; eassumption.
  - destruct (fs (lit "/etc/pam.conf")) as [f|] eqn:E.
    + destruct (file_gives_total None f) as (es & good & H); [intros _; auto|]. eexists _, _; eapply conf_single; eauto.
    + eexists _, _; eapply conf_nosingle; reflexivity.
Qed.
End P.
