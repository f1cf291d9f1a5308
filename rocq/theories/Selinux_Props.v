(** C111, C112: contexts of sessions with pam_selinux. *)
From Coq Require Import String Ascii List Arith ZArith Bool Lia.
From Verif Require Import Base Num_Model Str_Model Opt_Model Opt_Facts Selinux_Model.
Import ListNotations.
Local Open Scope Z_scope.

(** * Specification *)

(** The first context of the SELinux user of the user for the service. *)
Definition Default (E : env) (def : cstr) : Prop :=
  exists user name service se level rest, e_user E = Some user /\ (e_pwname E user = Some name \/ e_pwname E user = None /\ name = user) /\
    e_service E = Some service /\ e_seuser E name service = Some (se, level) /\ e_contexts E se level = def :: rest.
(** A text that is there. *)
Definition Text (o : option cstr) (s : cstr) : Prop := o = Some s /\ s <> [].
Definition No_text (o : option cstr) : Prop := forall s, ~ Text o s.
(** Role and type: of the default context [x], or a wanted role with its default type. *)
Definition Has_role (E : env) (x : ctx) (want : option cstr) (r t : cstr) : Prop :=
  (No_text want /\ r = x_role x /\ t = x_type x) \/
  (Text want r /\ e_deftype E r = Some t /\ e_set E Role (Some r) = true /\ e_set E Type_ (Some t) = true).
(** The range: of the default context, or another one. *)
Definition Has_range (E : env) (x : ctx) (want : option (option cstr)) (l : option cstr) : Prop :=
  (want = None /\ l = x_range x) \/ (want = Some l /\ e_set E Range l = true).
(** The range of the process. *)
Definition Current (E : env) (l : option cstr) : Prop := exists c y, e_con E = Some c /\ e_new E c = Some y /\ x_range y = l.
(** The range wanted by an answer. *)
Inductive Answer_range (E : env) : bool -> option cstr -> option (option cstr) -> Prop :=
| ar_off : forall cur a, e_mls E = false -> Answer_range E cur a None
| ar_current : forall a l, e_mls E = true -> Current E l -> Answer_range E true a (Some l)
| ar_level : forall a l, e_mls E = true -> Text a l -> Answer_range E false a (Some (Some l))
| ar_none : forall a, e_mls E = true -> No_text a -> Answer_range E false a None.
(** The range wanted by options and variables. *)
Definition Use_current (E : env) (cur : bool) : Prop := cur = true \/ exists s, e_getenv E (lit "SELINUX_USE_CURRENT_RANGE") = Some ("1"%char :: s).
Inductive Env_range (E : env) (cur : bool) : option (option cstr) -> Prop :=
| er_off : e_mls E = false -> Env_range E cur None
| er_current : forall o l, e_mls E = true -> Use_current E cur -> Current E o -> Text o l -> Env_range E cur (Some (Some l))
| er_no_range : forall o, e_mls E = true -> Use_current E cur -> Current E o -> No_text o -> Env_range E cur None
| er_level : forall l, e_mls E = true -> ~ Use_current E cur -> Text (e_getenv E (lit "SELINUX_LEVEL_REQUESTED")) l -> Env_range E cur (Some (Some l))
| er_none : e_mls E = true -> ~ Use_current E cur -> No_text (e_getenv E (lit "SELINUX_LEVEL_REQUESTED")) -> Env_range E cur None.
(** A context of user, role, type and range. *)
Definition Built (E : env) (def : cstr) (role : option cstr) (Rng : option (option cstr) -> Prop) (s : cstr) : Prop :=
  exists x r t want l, e_new E def = Some x /\ Has_role E x role r t /\ Rng want /\ Has_range E x want l /\
    s = (x_user x ++ lit ":" ++ r ++ lit ":" ++ t ++ match l with Some l => lit ":" ++ l | None => [] end)%list.
(** It is valid, and with MLS within the default context. *)
Definition Permitted (E : env) (def s : cstr) : Prop := e_valid E s = true /\ (e_mls E = true -> e_contains E def s = true).
(** The dialogue. *)
Definition Yes (r : round) : Prop := exists c s, r_other r = Some (c :: s) /\ (c = "y"%char \/ c = "Y"%char).
Inductive Again (E : env) (def : cstr) (cur : bool) (r : round) : Prop :=
| again_type : forall x role, Yes r -> e_new E def = Some x -> Text (r_role r) role -> e_deftype E role = None -> Again E def cur r
| again_bad : forall s, Yes r -> Built E def (r_role r) (Answer_range E cur (r_level r)) s -> e_valid E s = false -> Again E def cur r.
Inductive Answered (E : env) (def : cstr) (cur : bool) : list round -> cstr -> Prop :=
| ans_no : forall r rs, ~ Yes r -> Answered E def cur (r :: rs) def
| ans_yes : forall r rs s, Yes r -> Built E def (r_role r) (Answer_range E cur (r_level r)) s -> Permitted E def s -> Answered E def cur (r :: rs) s
| ans_again : forall r rs s, Again E def cur r -> Answered E def cur rs s -> Answered E def cur (r :: rs) s.
(** The context selected with the options. *)
Definition Asks (args : list cstr) : Prop := In (lit "select_context") args /\ ~ In (lit "env_params") args.
Inductive Context (E : env) (args : list cstr) (def : cstr) : cstr -> Prop :=
| con_asked : forall cur s, Asks args -> (cur = true <-> In (lit "use_current_range") args) -> Answered E def cur (e_rounds E) s -> Context E args def s
| con_env : forall cur role s, ~ Asks args -> In (lit "env_params") args \/ In (lit "use_current_range") args ->
    (cur = true <-> In (lit "use_current_range") args) ->
    (In (lit "env_params") args /\ role = e_getenv E (lit "SELINUX_ROLE_REQUESTED") \/ ~ In (lit "env_params") args /\ role = None) ->
    Built E def role (Env_range E cur) s -> Permitted E def s -> Context E args def s
| con_default : ~ Asks args -> ~ In (lit "env_params") args -> ~ In (lit "use_current_range") args -> Context E args def def.
(** The terminal. *)
Definition Terminal (E : env) (path : cstr) : Prop :=
  exists t, (Text (e_tty E) t /\ t <> lit "ssh" /\ (forall r, t <> (lit "NODEV" ++ r)%list) \/
             (No_text (e_tty E) \/ e_tty E = Some (lit "ssh") \/ exists r, e_tty E = Some (lit "NODEV" ++ r)%list) /\
             exists n, (n <= 2)%nat /\ Text (e_ttyname E n) t /\ forall m, (m < n)%nat -> No_text (e_ttyname E m)) /\
    ((exists r, t = (lit "/dev/" ++ r)%list) /\ path = t \/ (forall r, t <> (lit "/dev/" ++ r)%list) /\ path = (lit "/dev/" ++ t)%list).
(** The contexts of process and files. *)
Record world := mkWorld { w_exec : option cstr; w_key : option cstr; w_file : cstr -> option cstr }.
Definition apply (W : world) (f : effect) : world :=
  match f with
  | SetFile p c true => mkWorld (w_exec W) (w_key W) (fun q => if streq q p then c else w_file W q)
  | SetExec c true => mkWorld c (w_key W) (w_file W)
  | SetKey c true => mkWorld (w_exec W) c (w_file W)
  | _ => W
  end.
Definition after (W : world) (fx : list effect) : world := fold_left apply fx W.
(** What is read at the beginning is so. *)
Definition Agrees (E : env) (W : world) : Prop := e_getexec E = Some (w_exec W) /\ forall p c, e_getfile E p = Label c -> w_file W p = Some c.
(** All contexts were taken. *)
Definition All_set (fx : list effect) : Prop := (forall p c, ~ In (SetFile p c false) fx) /\ (forall c, ~ In (SetExec c false) fx) /\ forall c, ~ In (SetKey c false) fx.
(** Later calls with the same handle. *)
Inductive call := Open (E : env) (args : list cstr) | Close (E : env) (args : list cstr).
Definition call_effects (d : data) (c : call) : list effect :=
  match c with Open E args => match open_session E args (Some d) with Asking fx => fx | Done _ _ fx => fx end | Close E args => snd (close_session E args (Some d)) end.
(** Whether the session has its own contexts after the calls. *)
Inductive In_session : list call -> bool -> Prop :=
| is_first : In_session [] true
| is_nothing_o : forall cs E args b, In_session cs b -> In (lit "close") args -> In_session (cs ++ [Open E args]) b
| is_nothing_c : forall cs E args b, In_session cs b -> In (lit "open") args -> In_session (cs ++ [Close E args]) b
| is_restore : forall cs E args b, In_session cs b -> ~ In (lit "close") args -> In (lit "restore") args -> In_session (cs ++ [Open E args]) false
| is_open : forall cs E args b, In_session cs b -> ~ In (lit "close") args -> ~ In (lit "restore") args -> In_session (cs ++ [Open E args]) true
| is_close : forall cs E args b, In_session cs b -> ~ In (lit "open") args -> In_session (cs ++ [Close E args]) false.

(** * Facts *)

Lemma given_true : forall o args, given o args = true <-> In o args.
Proof.
  intros o args. unfold given. rewrite existsb_exists. split.
  - intros (a & Ha & He). apply streq_eq in He. now subst.
  - intros H. exists o. split; [exact H | apply streq_refl].
Qed.
Lemma given_false : forall o args, given o args = false <-> ~ In o args.
Proof. intros o args. rewrite <- given_true. destruct (given o args); split; intros H; try congruence. Qed.
Lemma no_text_none : No_text None.
Proof. intros s [H _]. discriminate. Qed.
Lemma no_text_nil : No_text (Some []).
Proof. intros s [H N]. inversion H. congruence. Qed.
Lemma text_cons : forall c s, Text (Some (c :: s)) (c :: s).
Proof. intros c s. split; [reflexivity | discriminate]. Qed.
Lemma text_dec : forall o, (No_text o /\ (o = None \/ o = Some [])) \/ exists c s, o = Some (c :: s).
Proof. intros [[|c s]|]; [left; split; [apply no_text_nil | now right] | right; now exists c, s | left; split; [apply no_text_none | now left]]. Qed.
Lemma text_inv : forall o s, Text o s -> exists c r, o = Some (c :: r) /\ s = c :: r.
Proof. intros o [|c r] [H N]; [congruence | now exists c, r]. Qed.

Lemma yes_test : forall r, (match r_other r with Some (c :: _) => Ascii.eqb c "y" || Ascii.eqb c "Y" | _ => false end) = true <-> Yes r.
Proof.
  intros r. unfold Yes. split.
  - destruct (r_other r) as [[|c s]|]; try discriminate. intros H. exists c, s. split; [reflexivity|]. apply orb_true_iff in H. destruct H as [H|H]; apply Ascii.eqb_eq in H; auto.
  - intros (c & s & -> & [-> | ->]); reflexivity.
Qed.
Lemma set_role_some : forall E x w x', set_role E x w = Some (Some x') <-> exists r t, Has_role E x w r t /\ x' = mkCtx (x_user x) r t (x_range x).
Proof.
  intros E x w x'. unfold Has_role. destruct (text_dec w) as [[N [-> | ->]] | (c & s & ->)]; cbn [set_role].
  - split; [intros H; inversion H; exists (x_role x'), (x_type x'); split; [left; auto | now destruct x'] | ].
    intros (r & t & [(_ & -> & ->) | ([H _] & _)] & ->); [now destruct x | discriminate].
  - split; [intros H; inversion H; exists (x_role x'), (x_type x'); split; [left; auto | now destruct x'] | ].
    intros (r & t & [(_ & -> & ->) | ([H Hn] & _)] & ->); [now destruct x | inversion H; congruence].
  - split.
    + destruct (e_deftype E (c :: s)) as [t|] eqn:Ht; [|discriminate]. match goal with |- context [e_set E Role ?a] => destruct (e_set E Role a) eqn:H1 end; cbn [negb]; [|discriminate].
      destruct (e_set E Type_ (Some t)) eqn:H2; cbn [negb]; [|discriminate]. intros H; inversion H. exists (c :: s), t. split; [right; auto using text_cons | reflexivity].
    + intros (r & t & [(N & _) | (T & Ht & H1 & H2)] & ->); [exfalso; exact (N _ (text_cons c s)) |].
      destruct T as [T _]. inversion T; subst r. now rewrite Ht, H1, H2.
Qed.
Lemma set_role_none : forall E x w, set_role E x w = None <-> exists r, Text w r /\ e_deftype E r = None.
Proof.
  intros E x w. destruct (text_dec w) as [[N [-> | ->]] | (c & s & ->)]; cbn [set_role].
  - split; [discriminate | intros (r & T & _); exfalso; exact (N r T)].
  - split; [discriminate | intros (r & T & _); exfalso; exact (N r T)].
  - split.
    + destruct (e_deftype E (c :: s)) as [t|] eqn:Ht; [|intros _; exists (c :: s); split; [apply text_cons | exact Ht]].
      match goal with |- context [e_set E Role ?a] => destruct (e_set E Role a) end; cbn [negb]; [destruct (e_set E Type_ (Some t)); cbn [negb]; discriminate | discriminate].
    + intros (r & [T _] & H). inversion T; subst r. now rewrite H.
Qed.
Lemma set_range_some : forall E x l x', set_range E x l = Some x' <-> e_set E Range l = true /\ x' = mkCtx (x_user x) (x_role x) (x_type x) l.
Proof. intros E x l x'. unfold set_range. destruct (e_set E Range l); split; [intros H; inversion H; auto | intros (_ & ->); reflexivity | discriminate | intros (H & _); discriminate]. Qed.
Lemma current_some : forall E l, current_range E = Some l <-> Current E l.
Proof.
  intros E l. unfold current_range, Current. split.
  - destruct (e_con E) as [c|]; [|discriminate]. destruct (e_new E c) as [y|] eqn:Hy; [|discriminate]. intros H; inversion H. exists c, y. auto.
  - intros (c & y & -> & -> & ->). reflexivity.
Qed.
Lemma range_fix : forall x l, mkCtx (x_user x) (x_role x) (x_type x) l = x -> l = x_range x.
Proof. intros [u r t k] l H. cbn in H. inversion H. reflexivity. Qed.
Lemma answer_level_some : forall E cur x a x', answer_level E cur x a = Some x' <->
  exists want l, Answer_range E cur a want /\ Has_range E x want l /\ x' = mkCtx (x_user x) (x_role x) (x_type x) l.
Proof.
  intros E cur x a x'. unfold answer_level. destruct (e_mls E) eqn:M.
  - destruct cur.
    + split.
      * destruct (current_range E) as [l|] eqn:Hl; [|discriminate]. intros H. apply set_range_some in H. destruct H as (H & ->).
        exists (Some l), l. split; [apply ar_current; [exact M | now apply current_some] | split; [right; auto | reflexivity]].
      * intros (w & l & A & R & ->). inversion A as [? ? H0 | ? l0 _ C | |]; subst; [congruence|]. destruct R as [(H & _) | (H & R)]; [discriminate|]. inversion H; subst l0.
        apply current_some in C. rewrite C. apply set_range_some. auto.
    + destruct (text_dec a) as [[N O] | (c & s & ->)].
      * assert (Hx : (match a with Some (c :: l) => set_range E x (Some (c :: l)) | _ => Some x end) = Some x) by (destruct O as [-> | ->]; reflexivity).
        rewrite Hx. split.
        -- intros H; inversion H. exists None, (x_range x'). split; [now apply ar_none | split; [left; auto | now destruct x']].
        -- intros (w & l & A & R & ->). inversion A as [? ? H0 | | ? l0 _ T | ? _ _]; subst; [congruence | exfalso; exact (N _ T) |].
           destruct R as [(_ & ->) | (H & _)]; [now destruct x | discriminate].
      * split.
        -- intros H. apply set_range_some in H. destruct H as (H & ->). exists (Some (Some (c :: s))), (Some (c :: s)).
           split; [apply ar_level; [exact M | apply text_cons] | split; [right; auto | reflexivity]].
        -- intros (w & l & A & R & ->). inversion A as [? ? H0 | | ? l0 _ T | ? _ N]; subst; [congruence | | exfalso; exact (N _ (text_cons c s))].
           destruct T as [T _]. inversion T; subst l0. destruct R as [(H & _) | (H & R)]; [discriminate|]. inversion H; subst l. apply set_range_some. auto.
  - split.
    + intros H; inversion H. exists None, (x_range x'). split; [now apply ar_off | split; [left; auto | now destruct x']].
    + intros (w & l & A & R & ->). inversion A; subst; try congruence. destruct R as [(_ & ->) | (K & _)]; [now destruct x | discriminate].
Qed.
(** Two steps give the context. *)
Lemma context_str_built : forall u r t l, context_str (mkCtx u r t l) = (u ++ lit ":" ++ r ++ lit ":" ++ t ++ match l with Some l => lit ":" ++ l | None => [] end)%list.
Proof. intros u r t [l|]; unfold context_str; cbn [x_user x_role x_type x_range]; reflexivity. Qed.
Lemma has_range_role : forall E x r t want l, Has_range E (mkCtx (x_user x) r t (x_range x)) want l <-> Has_range E x want l.
Proof. intros. unfold Has_range. cbn [x_range]. tauto. Qed.
Lemma built_intro : forall E def role (Rng : option (option cstr) -> Prop) x x1 x2 want l, e_new E def = Some x -> set_role E x role = Some (Some x1) ->
  Rng want -> Has_range E x1 want l -> x2 = mkCtx (x_user x1) (x_role x1) (x_type x1) l -> Built E def role Rng (context_str x2).
Proof.
  intros E def role Rng x x1 x2 want l Hx H1 Hr Hl ->. apply set_role_some in H1. destruct H1 as (r & t & H1 & ->).
  exists x, r, t, want, l. rewrite has_range_role in Hl. cbn [x_user x_role x_type]. rewrite context_str_built. auto.
Qed.

(** The environment's range. *)
Definition env_range (E : env) (cur : bool) (x : ctx) : option ctx :=
  if e_mls E then
    let current := cur || match e_getenv E (lit "SELINUX_USE_CURRENT_RANGE") with Some ("1"%char :: _) => true | _ => false end in
    match (if current then current_range E else Some (e_getenv E (lit "SELINUX_LEVEL_REQUESTED"))) with
    | None => None
    | Some (Some (c :: l)) => set_range E x (Some (c :: l))
    | Some _ => Some x
    end
  else Some x.
Lemma use_current_test : forall E cur, (cur || match e_getenv E (lit "SELINUX_USE_CURRENT_RANGE") with Some ("1"%char :: _) => true | _ => false end) = true <-> Use_current E cur.
Proof.
  intros E cur. unfold Use_current. rewrite orb_true_iff.
  assert (X : forall o : option cstr, (match o with Some ("1"%char :: _) => true | _ => false end) = true <-> exists s, o = Some ("1"%char :: s)).
  { intros [[|c s]|]; [split; [discriminate | intros (s & H); discriminate] | | split; [discriminate | intros (s & H); discriminate]].
    destruct (Ascii.eqb c "1"%char) eqn:Hc.
    - apply Ascii.eqb_eq in Hc. subst c. split; [intros _; now exists s | reflexivity].
    - apply Ascii.eqb_neq in Hc. split; [|intros (r & H); inversion H; congruence].
      destruct c as [[] [] [] [] [] [] [] []]; try discriminate. now destruct Hc. }
  rewrite X. tauto.
Qed.
Lemma keep_or_set : forall E x o x', (match o with Some (c :: l) => set_range E x (Some (c :: l)) | _ => Some x end) = Some x' <->
  (No_text o /\ x' = x \/ exists l, Text o l /\ e_set E Range (Some l) = true /\ x' = mkCtx (x_user x) (x_role x) (x_type x) (Some l)).
Proof.
  intros E x o x'. destruct (text_dec o) as [[N O] | (c & s & ->)].
  - assert (Hx : (match o with Some (c :: l) => set_range E x (Some (c :: l)) | _ => Some x end) = Some x) by (destruct O as [-> | ->]; reflexivity).
    rewrite Hx. split; [intros H; inversion H; auto | intros [(_ & ->) | (l & T & _)]; [reflexivity | exfalso; exact (N _ T)]].
  - split.
    + intros H. apply set_range_some in H. right. exists (c :: s). split; [apply text_cons | exact H].
    + intros [(N & _) | (l & [T _] & H)]; [exfalso; exact (N _ (text_cons c s)) |]. inversion T; subst l. now apply set_range_some.
Qed.
Lemma env_range_some : forall E cur x x', env_range E cur x = Some x' <->
  exists want l, Env_range E cur want /\ Has_range E x want l /\ x' = mkCtx (x_user x) (x_role x) (x_type x) l.
Proof.
  intros E cur x x'. unfold env_range. destruct (e_mls E) eqn:M.
  - cbv zeta. destruct (cur || _) eqn:U.
    + apply use_current_test in U. destruct (current_range E) as [o|] eqn:C.
      * apply current_some in C. transitivity (No_text o /\ x' = x \/ exists l, Text o l /\ e_set E Range (Some l) = true /\ x' = mkCtx (x_user x) (x_role x) (x_type x) (Some l)).
        { rewrite <- keep_or_set. destruct o as [[|? ?]|]; reflexivity. }
        split.
        -- intros [(N & ->) | (l & T & H & ->)].
           ++ exists None, (x_range x). split; [now apply er_no_range with (o := o) | split; [left; auto | now destruct x]].
           ++ exists (Some (Some l)), (Some l). split; [now apply er_current with (o := o) | split; [right; auto | reflexivity]].
        -- intros (w & l & A & R & ->).
           assert (Q : forall o', Current E o' -> o' = o) by (intros o' C'; apply current_some in C; apply current_some in C'; congruence).
           inversion A as [H0 | o' l' _ _ C' T | o' _ _ C' N | l' _ NU _ | _ NU _]; subst; try congruence; try contradiction.
           ++ apply Q in C'. subst o'. right. destruct R as [(H & _) | (H & R)]; [discriminate|]. inversion H; subst l. exists l'. auto.
           ++ apply Q in C'. subst o'. left. destruct R as [(_ & ->) | (H & _)]; [split; [exact N | now destruct x] | discriminate].
      * split; [discriminate|]. intros (w & l & A & _ & _).
        assert (Q : forall o', ~ Current E o') by (intros o' C'; apply current_some in C'; congruence).
        inversion A; subst; try congruence; try contradiction; exfalso; eapply Q; eassumption.
    + assert (NU : ~ Use_current E cur) by (rewrite <- use_current_test; congruence).
      set (o := e_getenv E (lit "SELINUX_LEVEL_REQUESTED")).
      transitivity (No_text o /\ x' = x \/ exists l, Text o l /\ e_set E Range (Some l) = true /\ x' = mkCtx (x_user x) (x_role x) (x_type x) (Some l)).
      { rewrite <- keep_or_set. destruct o as [[|? ?]|]; reflexivity. }
      split.
      * intros [(N & ->) | (l & T & H & ->)].
        -- exists None, (x_range x). split; [now apply er_none | split; [left; auto | now destruct x]].
        -- exists (Some (Some l)), (Some l). split; [now apply er_level | split; [right; auto | reflexivity]].
      * intros (w & l & A & R & ->). inversion A as [H0 | o' l' _ U' _ _ | o' _ U' _ _ | l' _ _ T | _ _ N]; subst; try congruence; try contradiction.
        -- right. destruct R as [(H & _) | (H & R)]; [discriminate|]. inversion H; subst l. exists l'. auto.
        -- left. destruct R as [(_ & ->) | (H & _)]; [split; [exact N | now destruct x] | discriminate].
  - split.
    + intros H; inversion H. exists None, (x_range x'). split; [now apply er_off | split; [left; auto | now destruct x']].
    + intros (w & l & A & R & ->). inversion A; subst; try congruence. destruct R as [(_ & ->) | (K & _)]; [now destruct x | discriminate].
Qed.

Lemma built_elim : forall E def role (Rng : option (option cstr) -> Prop) s, Built E def role Rng s ->
  exists x x1 want l, e_new E def = Some x /\ set_role E x role = Some (Some x1) /\ Rng want /\ Has_range E x1 want l /\ s = context_str (mkCtx (x_user x1) (x_role x1) (x_type x1) l).
Proof.
  intros E def role Rng s (x & r & t & want & l & Hx & Hr & Hw & Hl & ->). exists x, (mkCtx (x_user x) r t (x_range x)), want, l.
  rewrite has_range_role, context_str_built. split; [exact Hx|]. split; [apply set_role_some; exists r, t; auto|]. auto.
Qed.
(** The dialogue gives the answered context. *)
Lemma ask_some : forall E def cur rs s, fst (ask E def cur rs) = Some (Some s) <-> Answered E def cur rs s /\ e_dup E s = true.
Proof.
  intros E def cur rs s. split.
  - revert s. induction rs as [|r rs IH]; intros s; cbn [ask]; [discriminate|].
    destruct (match r_other r with Some (c :: _) => _ | _ => false end) eqn:Y.
    + apply yes_test in Y. cbv zeta. destruct (e_new E def) as [x|] eqn:Hx; [|discriminate].
      destruct (set_role E x (r_role r)) as [[x1|]|] eqn:H1; [|discriminate|].
      * destruct (answer_level E cur x1 (r_level r)) as [x2|] eqn:H2; [|discriminate].
        apply answer_level_some in H2. destruct H2 as (want & l & A & R & Hx2).
        assert (B : Built E def (r_role r) (Answer_range E cur (r_level r)) (context_str x2)) by (eapply built_intro; eauto).
        destruct (e_valid E (context_str x2)) eqn:V.
        -- destruct (e_dup E (context_str x2)) eqn:D; cbn [negb]; [|discriminate].
           destruct (e_mls E && negb (e_contains E def (context_str x2))) eqn:C; [discriminate|].
           cbn [fst]. intros H. inversion H; subst s. split; [|exact D]. apply ans_yes; [exact Y | exact B|]. split; [exact V|].
           intros M. rewrite M in C. cbn in C. now apply negb_false_iff in C.
        -- destruct (ask E def cur rs) as [o fx]. cbn [fst] in *. intros H. apply IH in H. destruct H as (H & D). split; [|exact D].
           apply ans_again; [eapply again_bad; eauto | exact H].
      * apply set_role_none in H1. destruct H1 as (role & T & Ht). destruct (ask E def cur rs) as [o fx]. cbn [fst] in *. intros H. apply IH in H. destruct H as (H & D).
        split; [|exact D]. apply ans_again; [eapply again_type; eauto | exact H].
    + assert (NY : ~ Yes r) by (rewrite <- yes_test; congruence). cbn [fst]. unfold dup. destruct (e_dup E def) eqn:D; [|discriminate].
      intros H. inversion H; subst s. split; [now apply ans_no | exact D].
  - intros (A & D). revert D. induction A as [r rs NY | r rs s Y B P | r rs s G A IH]; intros D; cbn [ask].
    + destruct (match r_other r with Some (c :: _) => _ | _ => false end) eqn:Y; [apply yes_test in Y; contradiction|]. cbn [fst]. unfold dup. now rewrite D.
    + rewrite (proj2 (yes_test r) Y). cbv zeta. apply built_elim in B. destruct B as (x & x1 & want & l & -> & -> & Hr & Hl & ->).
      rewrite (proj2 (answer_level_some E cur x1 (r_level r) _)) by (exists want, l; eauto). destruct P as (V & C). rewrite V, D. cbn [negb].
      destruct (e_mls E) eqn:M; [rewrite (C eq_refl)|]; reflexivity.
    + specialize (IH D). destruct G as [x role Y Hx T Ht | s' Y B V]; rewrite (proj2 (yes_test r) Y); cbv zeta.
      * rewrite Hx, (proj2 (set_role_none E x (r_role r))) by (exists role; auto). destruct (ask E def cur rs). exact IH.
      * apply built_elim in B. destruct B as (x & x1 & want & l & -> & -> & Hr & Hl & ->).
        rewrite (proj2 (answer_level_some E cur x1 (r_level r) _)) by (exists want, l; eauto). rewrite V. destruct (ask E def cur rs). exact IH.
Qed.
Lemma from_env_eq : forall E def ep cur, context_from_env E def ep cur =
  let fail s := (None, [Audit false def s]) in
  match e_new E def with
  | None => fail None
  | Some x =>
      match set_role E x (if ep then e_getenv E (lit "SELINUX_ROLE_REQUESTED") else None) with
      | None | Some None => fail None
      | Some (Some x) =>
          match env_range E cur x with
          | None => fail None
          | Some x =>
              let s := context_str x in
              if negb (e_dup E s) then fail None else if negb (e_valid E s) then fail (Some s)
              else if e_mls E && negb (e_contains E def s) then fail (Some s) else (Some s, [])
          end
      end
  end.
Proof. reflexivity. Qed.
Lemma from_env_some : forall E def (ep : bool) cur s, fst (context_from_env E def ep cur) = Some s <->
  (Built E def (if ep then e_getenv E (lit "SELINUX_ROLE_REQUESTED") else None) (Env_range E cur) s /\ Permitted E def s) /\ e_dup E s = true.
Proof.
  intros E def ep cur s. rewrite from_env_eq. cbv zeta. set (role := if ep then _ else _). split.
  - destruct (e_new E def) as [x|] eqn:Hx; [|discriminate]. destruct (set_role E x role) as [[x1|]|] eqn:H1; [|discriminate|discriminate].
    destruct (env_range E cur x1) as [x2|] eqn:H2; [|discriminate]. apply env_range_some in H2. destruct H2 as (want & l & A & R & Hx2).
    assert (B : Built E def role (Env_range E cur) (context_str x2)) by (eapply built_intro; eauto).
    destruct (e_dup E (context_str x2)) eqn:D; cbn [negb]; [|discriminate]. destruct (e_valid E (context_str x2)) eqn:V; cbn [negb]; [|discriminate].
    destruct (e_mls E && negb (e_contains E def (context_str x2))) eqn:C; [discriminate|]. cbn [fst]. intros H. inversion H; subst s.
    split; [split; [exact B|] | exact D]. split; [exact V|]. intros M. rewrite M in C. cbn in C. now apply negb_false_iff in C.
  - intros ((B & V & C) & D). apply built_elim in B. destruct B as (x & x1 & want & l & -> & -> & Hr & Hl & ->).
    rewrite (proj2 (env_range_some E cur x1 _)) by (exists want, l; eauto). rewrite V, D. cbn [negb]. destruct (e_mls E) eqn:M; [rewrite (C eq_refl)|]; reflexivity.
Qed.
Lemma from_env_none : forall E def ep cur, fst (context_from_env E def ep cur) = None -> exists sel, snd (context_from_env E def ep cur) = [Audit false def sel].
Proof.
  intros E def ep cur. rewrite from_env_eq. cbv zeta. destruct (e_new E def) as [x|]; [|eexists; reflexivity].
  destruct (set_role E x _) as [[x1|]|]; [|eexists; reflexivity|eexists; reflexivity]. destruct (env_range E cur x1) as [x2|]; [|eexists; reflexivity].
  destruct (negb (e_dup E _)); [eexists; reflexivity|]. destruct (negb (e_valid E _)); [eexists; reflexivity|].
  destruct (e_mls E && _); [eexists; reflexivity | discriminate].
Qed.
Lemma from_env_one : forall E def ep cur c, fst (context_from_env E def ep cur) = Some c -> snd (context_from_env E def ep cur) = [].
Proof.
  intros E def ep cur c. rewrite from_env_eq. cbv zeta. destruct (e_new E def) as [x|]; [|discriminate].
  destruct (set_role E x _) as [[x1|]|]; [|discriminate|discriminate]. destruct (env_range E cur x1) as [x2|]; [|discriminate].
  destruct (negb (e_dup E _)); [discriminate|]. destruct (negb (e_valid E _)); [discriminate|]. destruct (e_mls E && _); [discriminate | reflexivity].
Qed.
Lemma ask_none : forall E def cur rs, e_dup E def = true -> fst (ask E def cur rs) = Some None -> exists sel, In (Audit false def sel) (snd (ask E def cur rs)).
Proof.
  intros E def cur rs D. induction rs as [|r rs IH]; cbn [ask]; [discriminate|]. destruct (match r_other r with Some (c :: _) => _ | _ => false end).
  - cbv zeta. destruct (e_new E def) as [x|]; [|intros _; eexists; now left]. destruct (set_role E x (r_role r)) as [[x1|]|]; [|intros _; eexists; now left|].
    + destruct (answer_level E cur x1 (r_level r)) as [x2|]; [|intros _; eexists; now left]. destruct (e_valid E _).
      * destruct (negb (e_dup E _)); [intros _; eexists; now left|]. destruct (e_mls E && _); [intros _; eexists; now left | discriminate].
      * destruct (ask E def cur rs) as [o fx]. intros _. eexists. now left.
    + destruct (ask E def cur rs) as [o fx]. cbn [fst snd] in *. intros H. apply IH in H. destruct H as (sel & H). exists sel. now right.
  - cbn [fst]. unfold dup. rewrite D. discriminate.
Qed.
(** Messages only. *)
Definition quiet (f : effect) : Prop := match f with Audit b _ _ => b = false | Told => True | _ => False end.
Lemma quiet_after : forall fx W, Forall quiet fx -> after W fx = W.
Proof.
  intros fx W H. revert W. induction H as [|f fx Hf H IH]; intros W; [reflexivity|]. unfold after in *. cbn [fold_left]. rewrite IH.
  destruct f as [p c dn | c dn | c dn | b x y |]; try destruct dn; try contradiction; reflexivity.
Qed.
Lemma ask_quiet : forall E def cur rs, Forall quiet (snd (ask E def cur rs)).
Proof.
  intros E def cur rs. induction rs as [|r rs IH]; cbn [ask]; [constructor|]. destruct (match r_other r with Some (c :: _) => _ | _ => false end); [|constructor].
  cbv zeta. destruct (e_new E def) as [x|]; [|repeat constructor]. destruct (set_role E x (r_role r)) as [[x1|]|]; [|repeat constructor|].
  - destruct (answer_level E cur x1 (r_level r)) as [x2|]; [|repeat constructor]. destruct (e_valid E _).
    + destruct (negb (e_dup E _)); [repeat constructor|]. destruct (e_mls E && _); repeat constructor.
    + destruct (ask E def cur rs) as [o fx]. cbn [snd] in *. repeat constructor. exact IH.
  - destruct (ask E def cur rs) as [o fx]. cbn [snd] in *. repeat constructor. exact IH.
Qed.
(** The flags of [create_context]. *)
Definition exec_of (E : env) (args : list cstr) : option (option (cstr * cstr) + Z) * list effect :=
  compute_exec_context E (given (lit "select_context") args && negb (given (lit "env_params") args)) (given (lit "use_current_range") args) (given (lit "env_params") args).
Definition selected (E : env) (args : list cstr) (def : cstr) : option (option cstr) * list effect :=
  if given (lit "select_context") args && negb (given (lit "env_params") args) then config_context E def (given (lit "use_current_range") args)
  else if given (lit "env_params") args || given (lit "use_current_range") args then
    let '(c, fx) := context_from_env E def (given (lit "env_params") args) (given (lit "use_current_range") args) in (Some c, fx)
  else (Some (Some def), []).
Lemma asks_test : forall args, given (lit "select_context") args && negb (given (lit "env_params") args) = true <-> Asks args.
Proof. intros args. unfold Asks. rewrite andb_true_iff, negb_true_iff, given_true, given_false. reflexivity. Qed.
Lemma selected_some : forall E args def s, e_dup E def = true -> (fst (selected E args def) = Some (Some s) <-> Context E args def s /\ e_dup E s = true).
Proof.
  intros E args def s Dd. unfold selected. set (sc := given (lit "select_context") args). set (cur := given (lit "use_current_range") args). set (ep := given (lit "env_params") args).
  assert (Hcur : cur = true <-> In (lit "use_current_range") args) by apply given_true.
  assert (Hep : ep = true <-> In (lit "env_params") args) by apply given_true.
  destruct (sc && negb ep) eqn:A.
  - apply asks_test in A. unfold config_context.
    assert (X : fst (let '(o, fx) := ask E def cur (e_rounds E) in (o, Told :: fx)) = fst (ask E def cur (e_rounds E))) by (destruct (ask E def cur (e_rounds E)); reflexivity).
    rewrite X, ask_some. split.
    + intros (H & D). split; [|exact D]. now apply con_asked with (cur := cur).
    + intros (H & D). split; [|exact D]. inversion H as [cur' s' _ Hc Hs | cur' role s' NA | NA]; subst; try contradiction.
      assert (Hb : cur' = cur) by (destruct cur', cur; try reflexivity; [symmetry; apply Hcur, Hc | apply Hc, Hcur]; reflexivity). now subst cur'.
  - assert (NA : ~ Asks args) by (intro K; apply asks_test in K; fold sc ep in K; congruence).
    destruct (ep || cur) eqn:O.
    + assert (X : fst (let '(c, fx) := context_from_env E def ep cur in (Some c, fx)) = Some (fst (context_from_env E def ep cur))) by (destruct (context_from_env E def ep cur); reflexivity).
      rewrite X. transitivity (fst (context_from_env E def ep cur) = Some s); [split; intros H; [now inversion H | now f_equal]|]. rewrite from_env_some. split.
      * intros ((B & P) & D). split; [|exact D]. apply con_env with (cur := cur) (role := if ep then e_getenv E (lit "SELINUX_ROLE_REQUESTED") else None); auto.
        -- rewrite <- Hep, <- Hcur. now apply orb_true_iff in O.
        -- destruct ep; [left; split; [now apply Hep | reflexivity] | right; split; [intro K; apply Hep in K; discriminate | reflexivity]].
      * intros (H & D). split; [|exact D]. inversion H as [cur' s' Y | cur' role s' _ _ Hc Hr B P | _ N1 N2]; subst; try contradiction.
        -- assert (Hb : cur' = cur) by (destruct cur', cur; try reflexivity; [symmetry; apply Hcur, Hc | apply Hc, Hcur]; reflexivity). subst cur'.
           assert (Hrole : role = if ep then e_getenv E (lit "SELINUX_ROLE_REQUESTED") else None).
           { destruct Hr as [(Hi & ->) | (Hi & ->)]; [apply Hep in Hi; now rewrite Hi|]. destruct ep; [exfalso; apply Hi, Hep; reflexivity | reflexivity]. }
           subst role. auto.
        -- apply orb_true_iff in O. rewrite Hep, Hcur in O. tauto.
    + apply orb_false_iff in O. destruct O as (O1 & O2).
      assert (N1 : ~ In (lit "env_params") args) by (rewrite <- Hep; congruence). assert (N2 : ~ In (lit "use_current_range") args) by (rewrite <- Hcur; congruence).
      cbn [fst]. split.
      * intros H. inversion H; subst s. split; [now apply con_default | exact Dd].
      * intros (H & _). inversion H as [cur' s' Y | cur' role s' _ [Y|Y] | _ _ _]; subst; try contradiction; reflexivity.
Qed.
Lemma selected_quiet : forall E args def, Forall quiet (snd (selected E args def)).
Proof.
  intros E args def. unfold selected. destruct (_ && _).
  - unfold config_context. pose proof (ask_quiet E def (given (lit "use_current_range") args) (e_rounds E)) as H. destruct (ask _ _ _ _) as [o fx]. cbn [snd] in *.
    constructor; [exact Coq.Init.Logic.I | exact H].
  - destruct (_ || _); [|constructor]. pose proof (from_env_none E def (given (lit "env_params") args) (given (lit "use_current_range") args)) as H.
    pose proof (from_env_one E def (given (lit "env_params") args) (given (lit "use_current_range") args)) as H1.
    destruct (context_from_env _ _ _ _) as [[c|] fx]; cbn [fst snd] in *.
    + rewrite (H1 c eq_refl). constructor.
    + destruct (H eq_refl) as (sel & ->). repeat constructor.
Qed.
Lemma selected_none : forall E args def, e_dup E def = true -> fst (selected E args def) = Some None -> exists sel, In (Audit false def sel) (snd (selected E args def)).
Proof.
  intros E args def D. unfold selected. destruct (_ && _).
  - unfold config_context. pose proof (ask_none E def (given (lit "use_current_range") args) (e_rounds E) D) as H. destruct (ask _ _ _ _) as [o fx]. cbn [fst snd] in *.
    intros K. destruct (H K) as (sel & Hs). exists sel. now right.
  - destruct (_ || _); [|discriminate]. pose proof (from_env_none E def (given (lit "env_params") args) (given (lit "use_current_range") args)) as H.
    destruct (context_from_env _ _ _ _) as [[c|] fx]; cbn [fst snd] in *; [discriminate|]. intros _. destruct (H eq_refl) as (sel & ->). exists sel. now left.
Qed.
(** The cases of [exec_of]. *)
Lemma exec_cases : forall E args,
  (e_user E = None /\ exec_of E args = (Some (inr PAM_USER_UNKNOWN), [])) \/
  (e_user E <> None /\ e_service E = None /\ exec_of E args = (Some (inr PAM_SESSION_ERR), [])) \/
  ((forall def, ~ Default E def) /\ e_user E <> None /\ e_service E <> None /\ exec_of E args = (Some (inl None), [Told])) \/
  (exists def, Default E def /\ e_dup E def = false /\ exec_of E args = (Some (inr PAM_BUF_ERR), [])) \/
  (exists def, Default E def /\ e_dup E def = true /\ exec_of E args =
    match fst (selected E args def) with
    | None => (None, snd (selected E args def)) | Some None => (Some (inl None), (snd (selected E args def) ++ [Told])%list)
    | Some (Some c) => (Some (inl (Some (def, c))), snd (selected E args def))
    end).
Proof.
  intros E args. unfold exec_of, compute_exec_context. destruct (e_user E) as [user|] eqn:Hu; [right | left; auto].
  set (name := match e_pwname E user with Some n => n | None => user end).
  assert (Hn : e_pwname E user = Some name \/ e_pwname E user = None /\ name = user) by (unfold name; destruct (e_pwname E user); auto).
  destruct (e_service E) as [service|] eqn:Hs; [right | left; split; [discriminate | auto]].
  assert (U : forall def user' name' service' se level rest, e_user E = Some user' -> (e_pwname E user' = Some name' \/ e_pwname E user' = None /\ name' = user') ->
    e_service E = Some service' -> e_seuser E name' service' = Some (se, level) -> e_contexts E se level = def :: rest ->
    e_seuser E name service = Some (se, level)).
  { intros def user' name' service' se level rest H1 H2 H3 H4 _. rewrite Hu in H1. inversion H1; subst user'. rewrite Hs in H3. inversion H3; subst service'.
    assert (Hq : name' = name) by (destruct Hn as [Hn | (Hn & ->)], H2 as [H2 | (H2 & ->)]; congruence). now subst name'. }
  destruct (e_seuser E name service) as [[se level]|] eqn:Hse.
  - destruct (e_contexts E se level) as [|def rest] eqn:Hc.
    + left. split; [|split; [discriminate | split; [discriminate | reflexivity]]]. intros def (u & n & sv & se' & lv & rs & H1 & H2 & H3 & H4 & H5).
      specialize (U def u n sv se' lv rs H1 H2 H3 H4 H5). inversion U; subst se' lv. congruence.
    + right. assert (Df : Default E def) by (exists user, name, service, se, level, rest; auto 10). destruct (e_dup E def) eqn:D; cbn [negb].
      * right. exists def. split; [exact Df|]. split; [exact D|]. unfold selected. destruct (if _ && _ then _ else _) as [[[c|]|] fx]; reflexivity.
      * left. exists def. auto.
  - left. split; [|split; [discriminate | split; [discriminate | reflexivity]]]. intros def (u & n & sv & se' & lv & rs & H1 & H2 & H3 & H4 & H5).
    specialize (U def u n sv se' lv rs H1 H2 H3 H4 H5). discriminate.
Qed.
Lemma default_unique : forall E a b, Default E a -> Default E b -> a = b.
Proof.
  intros E a b (u & n & sv & se & lv & rs & H1 & H2 & H3 & H4 & H5) (u' & n' & sv' & se' & lv' & rs' & K1 & K2 & K3 & K4 & K5).
  assert (u' = u) by congruence. subst u'. assert (sv' = sv) by congruence. subst sv'. assert (n' = n) by (destruct H2 as [H2 | (H2 & ->)], K2 as [K2 | (K2 & ->)]; congruence). subst n'.
  rewrite H4 in K4. inversion K4; subst. congruence.
Qed.
Lemma exec_quiet : forall E args, Forall quiet (snd (exec_of E args)).
Proof.
  intros E args. pose proof (exec_cases E args) as C. destruct C as [(_ & ->) | [(_ & _ & ->) | [(_ & _ & _ & ->) | [(def & _ & _ & ->) | (def & _ & _ & ->)]]]]; try (repeat constructor).
  pose proof (selected_quiet E args def) as Q. destruct (fst (selected E args def)) as [[c|]|]; cbn [snd]; try exact Q. apply Forall_app. split; [exact Q | repeat constructor].
Qed.
Lemma create_eq : forall E args verbose, create_context E args verbose =
  if negb (e_on E) then Done PAM_SUCCESS None []
  else if negb (e_calloc E) then Done PAM_BUF_ERR None []
  else match exec_of E args with
  | (None, fx) => Asking fx
  | (Some (inr rc), fx) => Done rc None fx
  | (Some (inl None), fx) => Done (enforced E) None fx
  | (Some (inl (Some (def, c))), fx) =>
      match (if given (lit "nottys") args then inl (None, None, None) else compute_tty_context E c) with
      | inr rc => Done rc None fx
      | inl (path, prev, con) =>
          if negb (e_data E =? PAM_SUCCESS) then Done (e_data E) None fx
          else
            let d := mkData c (match e_getexec E with Some p => p | None => None end) def con prev path in
            let '(rc, fx') := set_context E d verbose in
            Done rc (Some d) (fx ++ fx')%list
      end
  end.
Proof. reflexivity. Qed.
(** The terminal. *)
Lemma empty_true : forall t, empty t = true <-> No_text t.
Proof. intros t. destruct (text_dec t) as [[N [-> | ->]] | (c & s & ->)]; split; try reflexivity; try (intros _; exact N); [discriminate | intros N; exfalso; exact (N _ (text_cons c s))]. Qed.
Lemma empty_false : forall t, empty t = false <-> exists s, Text t s.
Proof.
  intros t. destruct (text_dec t) as [[N O] | (c & s & ->)].
  - split; [|intros (s & T); exfalso; exact (N _ T)]. destruct O as [-> | ->]; discriminate.
  - split; [intros _; exists (c :: s); apply text_cons | reflexivity].
Qed.
Definition Named (E : env) (t : cstr) : Prop :=
  Text (e_tty E) t /\ t <> lit "ssh" /\ (forall r, t <> (lit "NODEV" ++ r)%list) \/
  (No_text (e_tty E) \/ e_tty E = Some (lit "ssh") \/ exists r, e_tty E = Some (lit "NODEV" ++ r)%list) /\
  exists n, (n <= 2)%nat /\ Text (e_ttyname E n) t /\ forall m, (m < n)%nat -> No_text (e_ttyname E m).
Lemma text_no : forall o s, Text o s -> No_text o -> False.
Proof. intros o s T N. exact (N s T). Qed.
Lemma terminal_named : forall E t, terminal E = Some t <-> Named E t.
Proof.
  intros E t. unfold terminal, Named. cbv zeta. set (o := e_tty E). set (other := match o with Some t => _ | None => _ end).
  assert (Ho : other = true <-> o = Some (lit "ssh") \/ exists r, o = Some (lit "NODEV" ++ r)%list).
  { unfold other. destruct o as [s|]; [|split; [discriminate | intros [H | (r & H)]; discriminate]]. rewrite orb_true_iff, streq_eq, is_prefix_spec.
    split; [intros [-> | (r & ->)]; [now left | right; now exists r] | intros [H | (r & H)]; inversion H; [now left | right; now exists r]]. }
  destruct (empty o || other) eqn:X.
  - assert (A : No_text o \/ o = Some (lit "ssh") \/ exists r, o = Some (lit "NODEV" ++ r)%list) by (apply orb_true_iff in X; rewrite empty_true, Ho in X; exact X).
    assert (NB : ~ (Text o t /\ t <> lit "ssh" /\ forall r, t <> (lit "NODEV" ++ r)%list)).
    { intros ((T & Tn) & N1 & N2). destruct A as [A | [A | (r & A)]]; [exact (A t (conj T Tn)) | congruence | apply (N2 r); congruence]. }
    transitivity (exists n, (n <= 2)%nat /\ Text (e_ttyname E n) t /\ forall m, (m < n)%nat -> No_text (e_ttyname E m)); [|tauto].
    destruct (empty (e_ttyname E 0%nat)) eqn:E0.
    + apply empty_true in E0. destruct (empty (e_ttyname E 1%nat)) eqn:E1.
      * apply empty_true in E1. destruct (empty (e_ttyname E 2%nat)) eqn:E2.
        -- apply empty_true in E2. split; [discriminate|]. intros (n & Hn & T & _). exfalso. destruct n as [|[|[|n]]]; [| | |lia]; eauto using text_no.
        -- split.
           ++ intros H. exists 2%nat. apply empty_false in E2. destruct E2 as (s & T & Tn). rewrite T in H. inversion H; subst s. split; [lia|]. split; [split; assumption|].
              intros m Hm. destruct m as [|[|m]]; [assumption | assumption | lia].
           ++ intros (n & Hn & T & _). destruct n as [|[|[|n]]]; [exfalso; eauto using text_no | exfalso; eauto using text_no | apply T | lia].
      * rewrite E1. split.
        -- intros H. exists 1%nat. apply empty_false in E1. destruct E1 as (s & T & Tn). rewrite T in H. inversion H; subst s. split; [lia|]. split; [split; assumption|].
           intros m Hm. destruct m as [|m]; [assumption | lia].
        -- apply empty_false in E1. destruct E1 as (s & T1). intros (n & Hn & T & L). destruct n as [|[|[|n]]]; [exfalso; eauto using text_no | apply T | | lia].
           exfalso. apply (text_no _ _ T1), L. lia.
    + rewrite E0, E0. split.
      * intros H. exists 0%nat. apply empty_false in E0. destruct E0 as (s & T & Tn). rewrite T in H. inversion H; subst s. split; [lia|]. split; [split; assumption|]. intros m Hm. lia.
      * apply empty_false in E0. destruct E0 as (s & T0). intros (n & Hn & T & L). destruct n as [|n]; [apply T|]. exfalso. apply (text_no _ _ T0), L. lia.
  - apply orb_false_iff in X. destruct X as (X1 & X2). assert (NO : ~ (o = Some (lit "ssh") \/ exists r, o = Some (lit "NODEV" ++ r)%list)) by (rewrite <- Ho; congruence).
    apply empty_false in X1. destruct X1 as (s & T). split.
    + intros H. left. destruct T as (T & Tn). assert (s = t) by congruence. subst s. split; [split; assumption|]. split; [intros ->; apply NO; now left|].
      intros r ->. apply NO. right. now exists r.
    + intros [((H & _) & _) | ([A | A] & _)]; [exact H | exfalso; exact (A _ T) | contradiction].
Qed.
Lemma terminal_path : forall E p, Terminal E p <-> exists t, terminal E = Some t /\ p = if is_prefix (lit "/dev/") t then t else (lit "/dev/" ++ t)%list.
Proof.
  intros E p. unfold Terminal. split; intros (t & H & P); exists t; (split; [apply terminal_named; exact H|]).
  - destruct P as [(A & ->) | (A & ->)]; [apply is_prefix_spec in A; now rewrite A|]. destruct (is_prefix (lit "/dev/") t) eqn:X; [|reflexivity].
    apply is_prefix_spec in X. destruct X as (r & X). now apply A in X.
  - destruct (is_prefix (lit "/dev/") t) eqn:X; [left; split; [now apply is_prefix_spec | exact P]|]. right. split; [|exact P]. intros r K.
    assert (Y : is_prefix (lit "/dev/") t = true) by (apply is_prefix_spec; now exists r). congruence.
Qed.
(** What is known of the terminal when data are kept. *)
Lemma tty_cases : forall E c path prev con, compute_tty_context E c = inl (path, prev, con) ->
  (exists p pr cn, Terminal E p /\ e_getfile E p = Label pr /\ e_class E = true /\ e_relabel E c pr = Some cn /\ path = Some p /\ prev = Some pr /\ con = Some cn) \/
  (exists p, Terminal E p /\ e_getfile E p = Unreadable /\ e_enforce E = false /\ path = Some p /\ prev = None /\ con = None) \/
  (path = None /\ prev = None /\ con = None /\ forall p, Terminal E p -> e_getfile E p = Absent \/ e_enforce E = false /\
     exists pr, e_getfile E p = Label pr /\ (e_class E = false \/ e_relabel E c pr = None)).
Proof.
  intros E c path prev con. unfold compute_tty_context. destruct (terminal E) as [t|] eqn:T.
  - set (p := if is_prefix (lit "/dev/") t then t else _). assert (HT : Terminal E p) by (apply terminal_path; exists t; auto).
    assert (U : forall p', Terminal E p' -> p' = p) by (intros p' K; apply terminal_path in K; destruct K as (t' & K & ->); assert (t' = t) by congruence; subst t'; reflexivity).
    cbv zeta. destruct (e_path E); cbn [negb]; [|discriminate]. destruct (e_getfile E p) as [pr| |] eqn:G.
    + destruct (e_class E) eqn:Cl; cbn [negb].
      * destruct (e_relabel E c pr) as [cn|] eqn:R; [|destruct (e_enforce E) eqn:En; [discriminate|]].
        -- intros H; inversion H; subst. left. exists p, pr, cn. auto 10.
        -- intros H; inversion H; subst. right. right. repeat split. intros p' K. rewrite (U p' K). right. split; [reflexivity|]. exists pr. auto.
      * destruct (e_enforce E) eqn:En; [discriminate|]. intros H; inversion H; subst. right. right. repeat split. intros p' K. rewrite (U p' K). right. split; [reflexivity|]. exists pr. auto.
    + intros H; inversion H; subst. right. right. repeat split. intros p' K. rewrite (U p' K). now left.
    + destruct (e_enforce E) eqn:En; [discriminate|]. intros H; inversion H; subst. right. left. exists p. auto 10.
  - intros H; inversion H; subst. right. right. repeat split. intros p' K. apply terminal_path in K. destruct K as (t' & K & _). congruence.
Qed.

(** * Theorems *)

Lemma open_first : forall E args d rc fx, open_session E args None = Done rc (Some d) fx ->
  ~ In (lit "close") args /\ ~ In (lit "restore") args /\ e_on E = true /\
  exists fx0 fx1, exec_of E args = (Some (inl (Some (d_default d, d_exec d))), fx0) /\ set_context E d (given (lit "verbose") args) = (rc, fx1) /\ fx = (fx0 ++ fx1)%list /\
    d_prev_exec d = match e_getexec E with Some p => p | None => None end /\
    (if given (lit "nottys") args then inl (None, None, None) else compute_tty_context E (d_exec d)) = inl (d_tty d, d_prev_tty d, d_tty_con d).
Proof.
  intros E args d rc fx. unfold open_session. destruct (given (lit "close") args) eqn:G1; [discriminate|]. destruct (given (lit "restore") args) eqn:G2; [cbn; discriminate|].
  rewrite create_eq. destruct (e_on E); cbn [negb]; [|discriminate]. destruct (e_calloc E); cbn [negb]; [|discriminate].
  destruct (exec_of E args) as [[[[[def c]|]|r]|] fx0]; try discriminate.
  destruct (if given (lit "nottys") args then _ else _) as [[[path prev] con]|r] eqn:T; [|discriminate]. destruct (e_data E =? PAM_SUCCESS); cbn [negb]; [|discriminate].
  cbv zeta. destruct (set_context E _ _) as [rc' fx1] eqn:S1. intros H. injection H as <- <- <-. cbn [d_default d_exec d_prev_exec d_tty d_prev_tty d_tty_con].
  split; [now apply given_false|]. split; [now apply given_false|]. split; [reflexivity|]. exists fx0, fx1. auto.
Qed.
(** C111: what a session gets is the context of the rules; data are kept for nothing else. *)
Theorem selinux_context : forall E args d rc fx, open_session E args None = Done rc (Some d) fx ->
  Default E (d_default d) /\ Context E args (d_default d) (d_exec d).
Proof.
  intros E args d rc fx H. apply open_first in H. destruct H as (_ & _ & _ & fx0 & fx1 & H & _).
  pose proof (exec_cases E args) as C. rewrite H in C. destruct C as [(_ & C) | [(_ & _ & C) | [(_ & _ & _ & C) | [(def & _ & _ & C) | (def & Df & D & C)]]]]; try discriminate.
  destruct (fst (selected E args def)) as [[c|]|] eqn:Hs; [|discriminate|discriminate]. injection C as C1 C2 _. rewrite C1, C2. apply selected_some in Hs; [|exact D]. destruct Hs as (Hs & _). auto.
Qed.
(** C111: and the session gets it, with enough memory, unless the terminal is in the way. *)
Theorem selinux_context_given : forall E args def s, ~ In (lit "close") args -> ~ In (lit "restore") args -> e_on E = true -> e_calloc E = true -> (forall s, e_dup E s = true) ->
  e_path E = true -> e_data E = PAM_SUCCESS -> Default E def -> Context E args def s ->
  (In (lit "nottys") args \/ e_enforce E = false \/ (forall p, ~ Terminal E p) \/
   exists p, Terminal E p /\ (e_getfile E p = Absent \/ exists pr c, e_getfile E p = Label pr /\ e_class E = true /\ e_relabel E s pr = Some c)) ->
  exists rc d fx, open_session E args None = Done rc (Some d) fx /\ d_default d = def /\ d_exec d = s.
Proof.
  intros E args def s N1 N2 On Ca Du Pa Da Df Cx Tt. unfold open_session. apply given_false in N1, N2. rewrite N1, N2, create_eq, On, Ca. cbn [negb].
  assert (X : exists fx0, exec_of E args = (Some (inl (Some (def, s))), fx0)).
  { pose proof (exec_cases E args) as C. destruct C as [(H & _) | [(_ & H & _) | [(H & _) | [(d' & _ & H & _) | (d' & D' & _ & C)]]]].
    - destruct Df as (u & n & sv & se & lv & rs & K & _). congruence.
    - destruct Df as (u & n & sv & se & lv & rs & _ & _ & K & _). congruence.
    - exfalso. exact (H def Df).
    - rewrite Du in H. discriminate.
    - rewrite (default_unique E d' def D' Df) in C. rewrite (proj2 (selected_some E args def s (Du def)) (conj Cx (Du s))) in C. eauto. }
  destruct X as (fx0 & ->).
  assert (Y : exists path prev con, (if given (lit "nottys") args then inl (None, None, None) else compute_tty_context E s) = inl (path, prev, con)).
  { destruct (given (lit "nottys") args) eqn:G; [eauto|]. apply given_false in G. destruct Tt as [Tt | Tt]; [contradiction|]. unfold compute_tty_context.
    destruct (terminal E) as [t|] eqn:T; [|eauto]. cbv zeta. rewrite Pa. cbn [negb].
    assert (HT : Terminal E (if is_prefix (lit "/dev/") t then t else (lit "/dev/" ++ t)%list)) by (apply terminal_path; exists t; auto).
    destruct Tt as [Tt | [Tt | (p & Hp & Tt)]].
    - rewrite Tt. destruct (e_getfile E _) as [pr| |]; [|eauto|eauto]. destruct (negb (e_class E)); [eauto|]. destruct (e_relabel E s pr); eauto.
    - exfalso. exact (Tt _ HT).
    - apply terminal_path in Hp. destruct Hp as (t' & T' & ->). assert (t' = t) by congruence. subst t'.
      destruct Tt as [-> | (pr & c & -> & -> & Hr)]; [eauto|]. cbn [negb]. rewrite Hr. eauto. }
  destruct Y as (path & prev & con & ->). rewrite Da. cbn [Z.eqb negb]. cbv zeta. destruct (set_context E _ _) as [rc fx1]. eexists. eexists. eexists. split; [reflexivity | split; reflexivity].
Qed.

(** C111: without a context that the rules permit the session is refused if SELinux is enforcing; the failure is audited and nothing is set. *)
Theorem selinux_refused : forall E args def o, ~ In (lit "close") args -> ~ In (lit "restore") args -> e_on E = true -> e_calloc E = true -> e_dup E def = true -> Default E def ->
  (forall s, ~ Context E args def s) -> open_session E args None = o ->
  (exists fx, o = Asking fx /\ Asks args) \/
  exists rc fx sel, o = Done rc None fx /\ (e_enforce E = true -> rc = PAM_SESSION_ERR) /\ (e_enforce E = false -> rc = PAM_SUCCESS) /\ In (Audit false def sel) fx /\ In Told fx /\
    forall W, after W fx = W.
Proof.
  intros E args def o N1 N2 On Ca Du Df Cx <-. unfold open_session. apply given_false in N1, N2. rewrite N1, N2, create_eq, On, Ca. cbn [negb].
  pose proof (exec_cases E args) as C. destruct C as [(H & _) | [(_ & H & _) | [(H & _) | [(d' & D' & H & _) | (d' & D' & _ & C)]]]].
  - destruct Df as (u & n & sv & se & lv & rs & K & _). congruence.
  - destruct Df as (u & n & sv & se & lv & rs & _ & _ & K & _). congruence.
  - exfalso. exact (H def Df).
  - rewrite (default_unique E d' def D' Df) in H. congruence.
  - rewrite (default_unique E d' def D' Df) in C. rewrite C. pose proof (selected_quiet E args def) as Q. pose proof (selected_none E args def Du) as N.
    destruct (fst (selected E args def)) as [[c|]|] eqn:Hs.
    + apply selected_some in Hs; [|exact Du]. exfalso. exact (Cx c (proj1 Hs)).
    + right. destruct (N eq_refl) as (sel & Hsel). eexists. eexists. exists sel. split; [reflexivity|]. unfold enforced.
      split; [intros ->; reflexivity|]. split; [intros ->; reflexivity|]. split; [apply in_or_app; now left|]. split; [apply in_or_app; right; now left|].
      intros W. apply quiet_after. apply Forall_app. split; [exact Q | repeat constructor].
    + left. eexists. split; [reflexivity|]. unfold selected in Hs. destruct (_ && _) eqn:A; [now apply asks_test|]. destruct (_ || _); [|discriminate].
      destruct (context_from_env _ _ _ _). discriminate.
Qed.
(** What [set_context] does. *)
Lemma set_after : forall E d v W rc fx, set_context E d v = (rc, fx) -> rc = PAM_SUCCESS -> e_enforce E = true ->
  w_exec (after W fx) = Some (d_exec d) /\ w_key (after W fx) = Some (d_exec d) /\
  forall q, w_file (after W fx) q = match d_tty d with Some p => if streq q p then match e_setfile E p (d_tty_con d) with Stored => d_tty_con d | _ => w_file W q end else w_file W q | None => w_file W q end.
Proof.
  intros E d v W rc fx H Hrc En. revert H. unfold set_context, set_file_context, set_exec_context, enforced. rewrite En.
  destruct (d_tty d) as [p|]; [destruct (e_setfile E p (d_tty_con d))|];
    destruct (e_setexec E (Some (d_exec d))) eqn:X1; destruct (e_setkey E (Some (d_exec d))) eqn:X2; cbn [andb]; intros H; injection H as H <-; subst rc; try discriminate;
    destruct v; cbn; (split; [reflexivity|]); (split; [reflexivity|]); intros q; try reflexivity; destruct (streq q p); reflexivity.
Qed.
(** C112: success with SELinux enforcing means that the contexts are set: of the next program, of new keys, and of the terminal, unless it is gone. *)
Theorem selinux_success : forall E args o fx, ~ In (lit "close") args -> ~ In (lit "restore") args -> e_on E = true -> e_enforce E = true ->
  open_session E args None = Done PAM_SUCCESS o fx -> forall V,
  exists def s, Default E def /\ Context E args def s /\ w_exec (after V fx) = Some s /\ w_key (after V fx) = Some s /\
    (forall q, ~ Terminal E q \/ In (lit "nottys") args -> w_file (after V fx) q = w_file V q) /\
    forall p, Terminal E p -> ~ In (lit "nottys") args ->
      e_getfile E p = Absent /\ w_file (after V fx) p = w_file V p \/
      exists pr c, e_getfile E p = Label pr /\ e_class E = true /\ e_relabel E s pr = Some c /\ (w_file (after V fx) p = Some c \/ e_setfile E p (Some c) = Gone).
Proof.
  intros E args o fx N1 N2 On En H V. destruct o as [d|].
  - pose proof (selinux_context E args d _ fx H) as (Df & Cx). pose proof (exec_quiet E args) as Q. apply open_first in H. destruct H as (_ & _ & _ & fx0 & fx1 & H0 & H1 & -> & _ & Ht).
    rewrite H0 in Q. cbn [snd] in Q. exists (d_default d), (d_exec d). unfold after. rewrite fold_left_app. fold (after V fx0). rewrite (quiet_after fx0 V Q). fold (after V fx1).
    destruct (set_after E d _ V _ fx1 H1 eq_refl En) as (A & B & C). split; [exact Df|]. split; [exact Cx|]. split; [exact A|]. split; [exact B|].
    destruct (given (lit "nottys") args) eqn:G.
    + apply given_true in G. inversion Ht as [[T1 T2 T3]]. split.
      * intros q _. rewrite C, <- T1. reflexivity.
      * intros p _ K. contradiction.
    + apply given_false in G. apply tty_cases in Ht. destruct Ht as [(p & pr & cn & T & Gf & Cl & Re & E1 & E2 & E3) | [(p & _ & _ & En' & _) | (E1 & E2 & E3 & T)]].
      * assert (U : forall p', Terminal E p' -> p' = p).
        { intros p' K. apply terminal_path in K, T. destruct K as (t' & K & ->), T as (t & T & ->). assert (t' = t) by congruence. now subst t'. }
        split.
        -- intros q [K | K]; [|contradiction]. rewrite C, E1. destruct (streq q p) eqn:S1; [apply streq_eq in S1; subst q; contradiction | reflexivity].
        -- intros p' K _. rewrite (U p' K). right. exists pr, cn. split; [exact Gf|]. split; [exact Cl|]. split; [exact Re|]. rewrite C, E1, streq_refl, E3.
           destruct (e_setfile E p (Some cn)) eqn:S1; [now left | now right |].
           exfalso. revert H1. unfold set_context, set_file_context, set_exec_context, enforced. rewrite E1, E3, S1, En. cbn [andb]. discriminate.
      * congruence.
      * split.
        -- intros q _. now rewrite C, E1.
        -- intros p K _. destruct (T p K) as [K' | (K' & _)]; [|congruence]. left. split; [exact K'|]. now rewrite C, E1.
  - exfalso. revert H. unfold open_session. apply given_false in N1, N2. rewrite N1, N2, create_eq, On. cbn [negb]. destruct (e_calloc E); cbn [negb]; [|discriminate].
    pose proof (exec_cases E args) as C. unfold enforced. rewrite En.
    assert (R : forall c r, (if given (lit "nottys") args then inl (None, None, None) else compute_tty_context E c) = inr r -> r <> PAM_SUCCESS).
    { intros c r. destruct (given (lit "nottys") args); [discriminate|]. unfold compute_tty_context. rewrite En. destruct (terminal E); [|discriminate]. cbv zeta.
      destruct (negb (e_path E)); [intros X; inversion X; discriminate|]. destruct (e_getfile E _); [|discriminate|intros X; inversion X; discriminate].
      destruct (negb (e_class E)); [intros X; inversion X; discriminate|]. destruct (e_relabel E c _); [discriminate | intros X; inversion X; discriminate]. }
    destruct C as [(_ & ->) | [(_ & _ & ->) | [(_ & _ & _ & ->) | [(def & _ & _ & ->) | (def & _ & _ & ->)]]]]; try discriminate.
    destruct (fst (selected E args def)) as [[c|]|]; try discriminate.
    destruct (if given (lit "nottys") args then _ else _) as [[[path prev] con]|r] eqn:T.
    + cbv zeta. destruct (e_data E =? PAM_SUCCESS) eqn:Da; cbn [negb].
      * destruct (set_context E _ _). discriminate.
      * intros X. injection X as X _. rewrite X in Da. discriminate.
    + intros X. injection X as -> _. exact (R c _ T eq_refl).
Qed.

(** C112: without data kept nothing is set, whatever the result; nor while the user is asked. *)
Theorem selinux_nothing_set : forall E args o fx, (exists rc, open_session E args None = Done rc o fx) /\ o = None \/ open_session E args None = Asking fx ->
  forall W, after W fx = W.
Proof.
  intros E args o fx H W. apply quiet_after. pose proof (exec_quiet E args) as Q. assert (H' : (exists rc, open_session E args None = Done rc None fx) \/ open_session E args None = Asking fx).
  { destruct H as [(H & ->) | H]; auto. } clear H. revert H'. unfold open_session.
  destruct (given (lit "close") args); [intros [(rc & H) | H]; inversion H; constructor|]. destruct (given (lit "restore") args); [cbn; intros [(rc & H) | H]; inversion H; constructor|].
  rewrite create_eq. destruct (negb (e_on E)); [intros [(rc & H) | H]; inversion H; constructor|]. destruct (negb (e_calloc E)); [intros [(rc & H) | H]; inversion H; constructor|].
  destruct (exec_of E args) as [[[[[def c]|]|r]|] fx0]; cbn [snd] in Q; try (intros [(rc & H) | H]; inversion H; subst; exact Q).
  destruct (if given (lit "nottys") args then _ else _) as [[[path prev] con]|r]; [|intros [(rc & H) | H]; inversion H; subst; exact Q].
  destruct (negb _); [intros [(rc & H) | H]; inversion H; subst; exact Q|]. cbv zeta. destruct (set_context E _ _). intros [(rc & H) | H]; inversion H.
Qed.
(** C112: what is restored, and what is set again. *)
Definition tty_of (d : data) (W : world) (q : cstr) : option cstr := match d_tty d with Some p => if streq q p then d_tty_con d else w_file W q | None => w_file W q end.
Definition old_of (d : data) (W : world) : Prop := forall p, d_tty d = Some p -> w_file W p = d_prev_tty d.
Lemma set_fx_after : forall E d v W, All_set (snd (set_context E d v)) ->
  w_exec (after W (snd (set_context E d v))) = Some (d_exec d) /\ w_key (after W (snd (set_context E d v))) = Some (d_exec d) /\
  forall q, w_file (after W (snd (set_context E d v))) q = tty_of d W q.
Proof.
  intros E d v W (A1 & A2 & A3). revert A1 A2 A3. unfold set_context, set_file_context, set_exec_context, tty_of.
  destruct (d_tty d) as [p|]; [destruct (e_setfile E p (d_tty_con d))|]; destruct (e_setexec E (Some (d_exec d))); destruct (e_setkey E (Some (d_exec d)));
    cbn [andb snd]; intros A1 A2 A3;
    try (exfalso; eapply A1; cbn; now left);
    try (exfalso; eapply A2; cbn; tauto);
    try (exfalso; eapply A3; destruct v; cbn; tauto);
    destruct v; cbn; (split; [reflexivity|]); (split; [reflexivity|]); intros q; reflexivity.
Qed.
Lemma restore_fx_after : forall E d W, All_set (snd (restore_context E (Some d))) ->
  w_exec (after W (snd (restore_context E (Some d)))) = d_prev_exec d /\ w_key (after W (snd (restore_context E (Some d)))) = w_key W /\
  forall q, w_file (after W (snd (restore_context E (Some d)))) q = match d_tty d with Some p => if streq q p then d_prev_tty d else w_file W q | None => w_file W q end.
Proof.
  intros E d W (A1 & A2 & _). revert A1 A2. unfold restore_context, set_file_context, set_exec_context.
  destruct (d_tty d) as [p|]; [destruct (e_setfile E p (d_prev_tty d))|]; destruct (e_setexec E (d_prev_exec d)); cbn [andb snd]; intros A1 A2;
    try (exfalso; eapply A1; cbn; now left);
    try (exfalso; eapply A2; cbn; tauto);
    cbn; (split; [reflexivity|]); (split; [reflexivity|]); intros q; reflexivity.
Qed.
Lemma all_set_app : forall a b, All_set (a ++ b) -> All_set a /\ All_set b.
Proof. intros a b (A1 & A2 & A3). split; (split; [|split]); intros; intro H; [apply (A1 p c)|apply (A2 c)|apply (A3 c)|apply (A1 p c)|apply (A2 c)|apply (A3 c)]; apply in_or_app; auto. Qed.
Lemma after_app : forall W a b, after W (a ++ b) = after (after W a) b.
Proof. intros. unfold after. apply fold_left_app. Qed.
(** After every sequence of calls with the handle in which no context is refused: the contexts of the session or those from before, as the last call says. *)
Theorem selinux_restored : forall E args W d rc fx cs b, Agrees E W -> (forall p, e_setfile E p None <> Stored) -> open_session E args None = Done rc (Some d) fx ->
  In_session cs b -> All_set (fx ++ flat_map (call_effects d) cs) ->
  w_key (after W (fx ++ flat_map (call_effects d) cs)) = Some (d_exec d) /\
  (b = true -> w_exec (after W (fx ++ flat_map (call_effects d) cs)) = Some (d_exec d) /\
     forall q, w_file (after W (fx ++ flat_map (call_effects d) cs)) q = w_file (after W fx) q) /\
  (b = false -> w_exec (after W (fx ++ flat_map (call_effects d) cs)) = w_exec W /\ forall q, w_file (after W (fx ++ flat_map (call_effects d) cs)) q = w_file W q).
Proof.
  intros E args W d rc fx cs b (Ag1 & Ag2) Nn Ho Hs Al. pose proof (exec_quiet E args) as Q. apply open_first in Ho. destruct Ho as (_ & _ & _ & fx0 & fx1 & H0 & H1 & -> & Hp & Ht).
  rewrite H0 in Q. cbn [snd] in Q. rewrite Ag1 in Hp.
  assert (X1 : after W (fx0 ++ fx1) = after W fx1) by (rewrite after_app, (quiet_after fx0 W Q); reflexivity).
  assert (Af : All_set fx1) by (apply all_set_app in Al; destruct Al as (Al & _); apply all_set_app in Al; apply Al).
  pose proof (set_fx_after E d (given (lit "verbose") args) W) as S1. rewrite H1 in S1. cbn [snd] in S1. specialize (S1 Af). destruct S1 as (S1 & S2 & S3).
  assert (Old : old_of d W).
  { intros p Hd. destruct (given (lit "nottys") args); [inversion Ht as [[T1 T2 T3]]; congruence|]. apply tty_cases in Ht.
    destruct Ht as [(p' & pr & cn & _ & Gf & _ & _ & E1 & E2 & _) | [(p' & _ & _ & _ & E1 & _ & E3) | (E1 & _)]].
    - assert (p' = p) by congruence. subst p'. rewrite E2. now apply Ag2.
    - exfalso. revert H1. unfold set_context, set_file_context, set_exec_context. rewrite E1, E3. specialize (Nn p'). destruct Af as (Af & _).
      destruct (e_setfile E p' None); [congruence| |]; intros K; injection K as _ K; apply (Af p' None); rewrite <- K; cbn; now left.
    - congruence. }
  rewrite after_app, X1. set (V := after W fx1) in *. rewrite after_app in *. fold V in S1, S2, S3.
  apply all_set_app in Al. destruct Al as (_ & Al).
  assert (I : w_key (after V (flat_map (call_effects d) cs)) = Some (d_exec d) /\
    (b = true -> w_exec (after V (flat_map (call_effects d) cs)) = Some (d_exec d) /\ forall q, w_file (after V (flat_map (call_effects d) cs)) q = tty_of d W q) /\
    (b = false -> w_exec (after V (flat_map (call_effects d) cs)) = w_exec W /\ forall q, w_file (after V (flat_map (call_effects d) cs)) q = w_file W q)).
  { assert (Oth : forall W' b', (b' = true -> w_exec W' = Some (d_exec d) /\ forall q, w_file W' q = tty_of d W q) /\ (b' = false -> w_exec W' = w_exec W /\ forall q, w_file W' q = w_file W q) ->
      forall q, (forall p, d_tty d = Some p -> streq q p = false) -> w_file W' q = w_file W q).
    { intros W' b' (T & F) q K. destruct b'; [|now apply F]. rewrite (proj2 (T eq_refl)). unfold tty_of. destruct (d_tty d) as [p|]; [now rewrite (K p eq_refl) | reflexivity]. }
    assert (Rst : forall W' b' E', w_key W' = Some (d_exec d) ->
      (b' = true -> w_exec W' = Some (d_exec d) /\ forall q, w_file W' q = tty_of d W q) /\ (b' = false -> w_exec W' = w_exec W /\ forall q, w_file W' q = w_file W q) ->
      All_set (snd (restore_context E' (Some d))) ->
      w_key (after W' (snd (restore_context E' (Some d)))) = Some (d_exec d) /\ w_exec (after W' (snd (restore_context E' (Some d)))) = w_exec W /\
      forall q, w_file (after W' (snd (restore_context E' (Some d)))) q = w_file W q).
    { intros W' b' E' K I A. destruct (restore_fx_after E' d W' A) as (R1 & R2 & R3). rewrite R1, R2. split; [exact K|]. split; [exact Hp|]. intros q. rewrite R3.
      pose proof (Oth W' b' I q) as O. unfold old_of in Old. destruct (d_tty d) as [p|].
      - destruct (streq q p) eqn:Sq; [apply streq_eq in Sq; subst q; symmetry; now apply Old | apply O; intros p' Hp'; inversion Hp'; now subst p'].
      - apply O. intros p' Hp'. discriminate. }
    clear Ht Hp. induction Hs as [| cs E' a' b H IH G | cs E' a' b H IH G | cs E' a' b H IH G1 G2 | cs E' a' b H IH G1 G2 | cs E' a' b H IH G].
    - cbn. split; [exact S2|]. split; [intros _; split; [exact S1 | exact S3] | discriminate].
    - rewrite flat_map_app in *. cbn [flat_map call_effects] in *. unfold open_session in *. apply given_true in G. rewrite G in *. cbn [app] in *. rewrite app_nil_r in *. now apply IH.
    - rewrite flat_map_app in *. cbn [flat_map call_effects] in *. unfold close_session in *. apply given_true in G. rewrite G in *. cbn [app snd] in *. rewrite app_nil_r in *. now apply IH.
    - rewrite flat_map_app in *. cbn [flat_map call_effects] in *. unfold open_session in *. apply given_false in G1. apply given_true in G2. rewrite G1, G2 in *.
      apply all_set_app in Al. destruct Al as (Al1 & Al2). specialize (IH Al1). destruct IH as (I1 & I2). rewrite after_app.
      pose proof (Rst _ b E' I1 I2) as R. destruct (restore_context E' (Some d)) as [rc' fx']. cbn [snd] in *. rewrite app_nil_r in *.
      destruct (R Al2) as (R1 & R2 & R3). split; [exact R1|]. split; [discriminate | auto].
    - rewrite flat_map_app in *. cbn [flat_map call_effects] in *. unfold open_session in *. apply given_false in G1. apply given_false in G2. rewrite G1, G2 in *.
      apply all_set_app in Al. destruct Al as (Al1 & Al2). specialize (IH Al1). destruct IH as (I1 & I2). rewrite after_app.
      set (W' := after V (flat_map (call_effects d) cs)) in *. pose proof (set_fx_after E' d (given (lit "verbose") a') W') as R.
      destruct (set_context E' d (given (lit "verbose") a')) as [rc' fx']. cbn [snd] in *. rewrite app_nil_r in *.
      destruct (R Al2) as (R1 & R2 & R3). split; [exact R2|]. split; [|discriminate]. intros _. split; [exact R1|]. intros q. rewrite R3.
      pose proof (Oth W' b I2 q) as O. unfold tty_of in *. destruct (d_tty d) as [p|].
      + destruct (streq q p) eqn:Sq; [reflexivity | apply O; intros p' Hp'; inversion Hp'; now subst p'].
      + apply O. intros p' Hp'. discriminate.
    - rewrite flat_map_app in *. cbn [flat_map call_effects] in *. unfold close_session in *. apply given_false in G. rewrite G in *.
      apply all_set_app in Al. destruct Al as (Al1 & Al2). specialize (IH Al1). destruct IH as (I1 & I2). rewrite after_app.
      rewrite app_nil_r in *. destruct (Rst _ b E' I1 I2 Al2) as (R1 & R2 & R3). split; [exact R1|]. split; [discriminate | auto]. }
  destruct I as (I1 & I2 & I3). split; [exact I1|]. split; [|exact I3]. intros Hb. destruct (I2 Hb) as (J1 & J2). split; [exact J1|]. intros q. now rewrite J2, S3.
Qed.

(** C112: with SELinux enforcing, success of later calls means that the contexts are set or restored. *)
Theorem selinux_enforced : forall E args d W, e_enforce E = true ->
  (forall o fx, ~ In (lit "close") args -> open_session E args (Some d) = Done PAM_SUCCESS o fx ->
     (In (lit "restore") args -> w_exec (after W fx) = d_prev_exec d /\ w_key (after W fx) = w_key W) /\
     (~ In (lit "restore") args -> w_exec (after W fx) = Some (d_exec d) /\ w_key (after W fx) = Some (d_exec d))) /\
  (forall fx, ~ In (lit "open") args -> close_session E args (Some d) = (PAM_SUCCESS, fx) -> w_exec (after W fx) = d_prev_exec d /\ w_key (after W fx) = w_key W).
Proof.
  intros E args d W En.
  assert (R : forall fx, restore_context E (Some d) = (PAM_SUCCESS, fx) -> w_exec (after W fx) = d_prev_exec d /\ w_key (after W fx) = w_key W).
  { intros fx. unfold restore_context, set_file_context, set_exec_context, enforced. rewrite En.
    destruct (d_tty d) as [p|]; [destruct (e_setfile E p (d_prev_tty d))|]; destruct (e_setexec E (d_prev_exec d)); cbn [andb]; intros H; inversion H; cbn; auto. }
  split.
  - intros o fx N. apply given_false in N. unfold open_session. rewrite N. destruct (given (lit "restore") args) eqn:G.
    + apply given_true in G. destruct (restore_context E (Some d)) as [rc f] eqn:K. intros H; inversion H; subst. split; [auto | contradiction].
    + apply given_false in G. destruct (set_context E d _) as [rc f] eqn:K. intros H; inversion H; subst. split; [contradiction|]. intros _.
      destruct (set_after E d _ W _ _ K eq_refl En) as (A & B & _). auto.
  - intros fx N. apply given_false in N. unfold close_session. rewrite N. apply R.
Qed.
(** C112: the options open and close, and calls without data. Data once kept stay. *)
Theorem selinux_only : forall E args,
  (forall d, In (lit "close") args -> open_session E args d = Done PAM_SUCCESS d []) /\
  (forall d, In (lit "open") args -> close_session E args d = (PAM_SUCCESS, [])) /\
  (In (lit "restore") args -> open_session E args None = Done PAM_SUCCESS None []) /\
  close_session E args None = (PAM_SUCCESS, []) /\
  (e_on E = false -> open_session E args None = Done PAM_SUCCESS None []) /\
  (forall d, exists rc fx, open_session E args (Some d) = Done rc (Some d) fx).
Proof.
  intros E args. unfold open_session, close_session. split; [intros d K; apply given_true in K; now rewrite K|]. split; [intros d K; apply given_true in K; now rewrite K|].
  split; [intros K; apply given_true in K; rewrite K; destruct (given (lit "close") args); reflexivity|]. split; [destruct (given (lit "open") args); reflexivity|].
  split.
  - intros Off. destruct (given (lit "close") args); [reflexivity|]. destruct (given (lit "restore") args); [reflexivity|]. unfold create_context. now rewrite Off.
  - intros d. destruct (given (lit "close") args); [eauto|]. destruct (given (lit "restore") args); [destruct (restore_context E (Some d)); eauto|]. destruct (set_context E d _). eauto.
Qed.
(** C112: when SELinux is not enforcing, failures with contexts are no errors. *)
Theorem selinux_permissive : forall E args d, e_enforce E = false ->
  (forall rc o fx, open_session E args d = Done rc o fx ->
     rc = PAM_SUCCESS \/
     d = None /\ o = None /\ (rc = PAM_USER_UNKNOWN /\ e_user E = None \/ rc = PAM_SESSION_ERR /\ e_service E = None \/ rc = PAM_BUF_ERR \/ rc = e_data E)) /\
  fst (close_session E args d) = PAM_SUCCESS.
Proof.
  intros E args d En.
  assert (R : fst (restore_context E d) = PAM_SUCCESS).
  { unfold restore_context, enforced. rewrite En. destruct d as [d|]; [|reflexivity]. destruct (set_file_context _ _ _) as [a fa], (set_exec_context _ _) as [b fb]. cbn [fst]. now destruct (a && b). }
  assert (S1 : forall d v, fst (set_context E d v) = PAM_SUCCESS).
  { intros d' v. unfold set_context, enforced. rewrite En. destruct (set_file_context _ _ _) as [a fa], (set_exec_context _ _) as [b fb]. cbn [fst]. now destruct (_ && _ && _). }
  split.
  - intros rc o fx. unfold open_session. destruct (given (lit "close") args); [intros H; inversion H; auto|].
    destruct (given (lit "restore") args); [destruct (restore_context E d); cbn [fst] in R; intros H; inversion H; subst; auto|].
    destruct d as [d|]; [specialize (S1 d (given (lit "verbose") args)); destruct (set_context E d _); cbn [fst] in S1; intros H; inversion H; subst; auto|].
    rewrite create_eq. destruct (negb (e_on E)); [intros H; inversion H; auto|]. destruct (negb (e_calloc E)); [intros H; inversion H; auto 10|].
    pose proof (exec_cases E args) as C. unfold enforced. rewrite En.
    destruct C as [(Hu & ->) | [(_ & Hv & ->) | [(_ & _ & _ & ->) | [(def & _ & _ & ->) | (def & _ & _ & ->)]]]]; try (intros Y; inversion Y; auto 10; fail).
    destruct (fst (selected E args def)) as [[c|]|]; [|intros Y; inversion Y; auto|discriminate].
    destruct (if given (lit "nottys") args then _ else _) as [[[path prev] con]|r] eqn:T.
    + destruct (negb _); [intros H; inversion H; auto 10|]. cbv zeta. match goal with |- context [set_context E ?x ?v] => specialize (S1 x v); destruct (set_context E x v) end.
      cbn [fst] in S1. intros H; inversion H; subst; auto.
    + destruct (given (lit "nottys") args); [discriminate|]. revert T. unfold compute_tty_context. rewrite En. destruct (terminal E); [|discriminate]. cbv zeta.
      destruct (negb (e_path E)); [intros X; injection X as <-; intros X'; inversion X'; auto 10|]. destruct (e_getfile E _); [|discriminate|discriminate].
      destruct (negb (e_class E)); [discriminate|]. destruct (e_relabel E c _); discriminate.
  - unfold close_session. destruct (given (lit "open") args); [reflexivity | exact R].
Qed.
(** C112: a context set for programs is audited as it turned out; no success is claimed in the audit otherwise. *)
Theorem selinux_audit : forall E args d0 rc o fx, open_session E args d0 = Done rc o fx ->
  (forall def sel, In (Audit true def sel) fx -> In (SetExec sel true) fx) /\
  (~ In (lit "close") args -> ~ In (lit "restore") args -> forall d, o = Some d ->
     exists b, In (SetExec (Some (d_exec d)) b) fx /\ In (Audit b (d_default d) (Some (d_exec d))) fx).
Proof.
  intros E args d0 rc o fx.
  assert (S1 : forall d v rc fx, set_context E d v = (rc, fx) -> (forall def sel, In (Audit true def sel) fx -> In (SetExec sel true) fx) /\
     exists b, In (SetExec (Some (d_exec d)) b) fx /\ In (Audit b (d_default d) (Some (d_exec d))) fx).
  { intros d v rc' fx'. unfold set_context, set_file_context, set_exec_context.
    destruct (d_tty d) as [p|]; [destruct (e_setfile E p (d_tty_con d))|]; destruct (e_setexec E (Some (d_exec d))) eqn:X1; destruct (e_setkey E (Some (d_exec d)));
      intros H; injection H as _ <-; destruct v; cbn;
      (split; [intros def sel H; repeat (destruct H as [H | H]; [try discriminate H; injection H; intros; subst; tauto|]); contradiction | first [exists true; split; tauto | exists false; split; tauto]]). }
  unfold open_session. destruct (given (lit "close") args) eqn:G1; [intros H; inversion H; subst; split; [intros def sel K; contradiction | apply given_true in G1; contradiction]|].
  destruct (given (lit "restore") args) eqn:G2.
  - apply given_true in G2. intros H. split; [|contradiction]. intros def sel. revert H. unfold restore_context, set_file_context, set_exec_context.
    destruct d0 as [d|]; [|intros H; inversion H; contradiction].
    destruct (d_tty d) as [p|]; [destruct (e_setfile E p (d_prev_tty d))|]; intros H; inversion H; subst; cbn; intros K; repeat (destruct K as [K | K]; [discriminate K|]); contradiction.
  - destruct d0 as [d|].
    + destruct (set_context E d _) as [rc' fx'] eqn:K. destruct (S1 _ _ _ _ K) as (A & B). intros H; inversion H; subst. split; [exact A|]. intros _ _ d' Hd. inversion Hd; subst d'. exact B.
    + intros H. pose proof (exec_quiet E args) as Q.
      assert (QN : forall fx, Forall quiet fx -> forall def sel, ~ In (Audit true def sel) fx).
      { intros f F def sel K. rewrite Forall_forall in F. apply F in K. cbn in K. discriminate. }
      rewrite create_eq in H. destruct (negb (e_on E)); [inversion H; split; [intros def sel K; contradiction | discriminate]|].
      destruct (negb (e_calloc E)); [inversion H; split; [intros def sel K; contradiction | discriminate]|].
      destruct (exec_of E args) as [[[[[def c]|]|r]|] fx0]; cbn [snd] in Q;
        [| injection H as _ <- <-; split; [intros def' sel K; exfalso; exact (QN _ Q _ _ K) | discriminate] | injection H as _ <- <-; split; [intros def' sel K; exfalso; exact (QN _ Q _ _ K) | discriminate] | discriminate H].
      destruct (if given (lit "nottys") args then _ else _) as [[[path prev] con]|r];
        [|inversion H; subst; split; [intros def' sel K; exfalso; exact (QN _ Q _ _ K) | discriminate]].
      destruct (negb _); [inversion H; subst; split; [intros def' sel K; exfalso; exact (QN _ Q _ _ K) | discriminate]|].
      cbv zeta in H. destruct (set_context E _ _) as [rc' fx'] eqn:K. destruct (S1 _ _ _ _ K) as (A & b & B1 & B2). inversion H; subst. split.
      * intros def' sel J. apply in_app_or in J. destruct J as [J | J]; [exfalso; exact (QN _ Q _ _ J) | apply in_or_app; right; eauto].
      * intros _ _ d Hd. inversion Hd; subst d. exists b. split; apply in_or_app; now right.
Qed.

(** * Findings *)

(** The parts of a text at colons, three or four, as context_new. *)
Definition split_colon (s : cstr) : option ctx :=
  let '(u, r) := span (fun c => negb (Ascii.eqb c ":")) s in let '(o, r1) := span (fun c => negb (Ascii.eqb c ":")) (tl r) in
  match r1 with [] => None | _ :: r2 => let '(t, r3) := span (fun c => negb (Ascii.eqb c ":")) r2 in Some (mkCtx u o t (match r3 with [] => None | _ :: l => Some l end)) end.
Definition E0 : env :=
  mkEnv true true true (Some (lit "joe")) (fun u => Some u) (Some (lit "login")) (fun u s => if streq u (lit "joe") then Some (lit "staff_u", lit "s0-s3") else None)
    (fun u l => [(u ++ lit ":staff_r:staff_t:" ++ l)%list; (u ++ lit ":user_r:user_t:" ++ l)%list]) true (fun _ => true) PAM_SUCCESS split_colon
    (fun r => if streq r (lit "sysadm_r") then Some (lit "sysadm_t") else None) (fun _ _ => true) (Some (lit "system_u:system_r:login_t:s0")) (fun _ => true)
    (fun _ s => negb (streq s (lit "staff_u:staff_r:staff_t:s9"))) (fun v => if streq v (lit "SELINUX_ROLE_REQUESTED") then Some (lit "sysadm_r") else None)
    (Some None) (Some (lit "tty1")) (fun _ => None) true
    (fun p => if streq p (lit "/dev/tty1") then Label (lit "tty_t") else Absent) true (fun _ _ => Some (lit "user_tty_t")) (fun _ c => match c with None => Refused | _ => Stored end)
    (fun _ => true) (fun _ => true) [mkRound (Some (lit "y")) (Some (lit "none_r")) None; mkRound (Some (lit "Y")) None (Some (lit "s2")); mkRound None None None].
Definition W0 : world := mkWorld None None (fun p => if streq p (lit "/dev/tty1") then Some (lit "tty_t") else None).
(** SELinux not enforcing, and a terminal without a readable label. *)
Definition E_permissive : env :=
  mkEnv true false true (Some (lit "joe")) (fun _ => None) (Some (lit "login")) (fun u s => if streq u (lit "joe") then Some (lit "staff_u", lit "s0-s3") else None)
    (fun u l => [(u ++ lit ":staff_r:staff_t:" ++ l)%list]) true (fun _ => true) PAM_SUCCESS split_colon (fun _ => None) (fun _ _ => true) None (fun _ => true) (fun _ _ => true) (fun _ => None)
    (Some None) (Some (lit "tty1")) (fun _ => None) true (fun _ => Unreadable) true (fun _ _ => None) (fun _ _ => Refused) (fun _ => true) (fun _ => true) [].
(** Refuted: at the end of the session the contexts from before are in effect again. That of new keys is not. *)
Theorem selinux_key_refuted : exists E args W d rc fx fx', Agrees E W /\ open_session E args None = Done rc (Some d) fx /\ close_session E args (Some d) = (PAM_SUCCESS, fx') /\
  All_set (fx ++ fx') /\ w_key (after W (fx ++ fx')) <> w_key W.
Proof.
  exists E0, [], W0. eexists. eexists. eexists. eexists. split.
  - split; [reflexivity|]. intros p c. cbn [e_getfile E0]. unfold W0. cbn [w_file]. destruct (streq p (lit "/dev/tty1")); intros H; inversion H; reflexivity.
  - split; [reflexivity|]. split; [reflexivity|]. split; [|cbn; discriminate].
    split; [|split]; intros; intro H; cbn in H; repeat (destruct H as [H | H]; [discriminate H|]); contradiction.
Qed.
(** Refuted: files are given contexts that have been computed for them. Without a readable label the terminal is given NULL. *)
Theorem selinux_null_label_refuted : exists E args d rc fx p b, open_session E args None = Done rc (Some d) fx /\ In (SetFile p None b) fx.
Proof. exists E_permissive, []. eexists. eexists. eexists. exists (lit "/dev/tty1"), false. split; [reflexivity | cbn; now left]. Qed.
(** Refuted: only users known to the system get a context. *)
Theorem selinux_unknown_refuted : exists E args user d fx, e_user E = Some user /\ e_pwname E user = None /\ open_session E args None = Done PAM_SUCCESS (Some d) fx.
Proof. exists E_permissive, [lit "nottys"]. eexists. eexists. eexists. split; [reflexivity|]. split; reflexivity. Qed.

(** * Examples *)

Example selinux_ex_default : exists fx, open_session E0 [] None =
  Done PAM_SUCCESS (Some (mkData (lit "staff_u:staff_r:staff_t:s0-s3") None (lit "staff_u:staff_r:staff_t:s0-s3") (Some (lit "user_tty_t")) (Some (lit "tty_t")) (Some (lit "/dev/tty1")))) fx.
Proof. eexists. reflexivity. Qed.
(** The role of a variable; the dialogue with a role without type, then another level; both options. *)
Example selinux_ex_env : exists d fx, open_session E0 [lit "env_params"] None = Done PAM_SUCCESS (Some d) fx /\ d_exec d = lit "staff_u:sysadm_r:sysadm_t:s0-s3".
Proof. eexists. eexists. split; reflexivity. Qed.
Example selinux_ex_ask : exists d fx, open_session E0 [lit "select_context"; lit "nottys"] None = Done PAM_SUCCESS (Some d) fx /\ d_exec d = lit "staff_u:staff_r:staff_t:s2" /\ d_tty d = None.
Proof. eexists. eexists. split; [reflexivity | split; reflexivity]. Qed.
Example selinux_ex_current : exists d fx, open_session E0 [lit "use_current_range"; lit "env_params"; lit "select_context"] None = Done PAM_SUCCESS (Some d) fx /\ d_exec d = lit "staff_u:sysadm_r:sysadm_t:s0".
Proof. eexists. eexists. split; reflexivity. Qed.
Example selinux_ex_default_rel : Default E0 (lit "staff_u:staff_r:staff_t:s0-s3").
Proof. exists (lit "joe"), (lit "joe"), (lit "login"), (lit "staff_u"), (lit "s0-s3"). eexists. repeat split. now left. Qed.
Example selinux_ex_context : Context E0 [lit "select_context"] (lit "staff_u:staff_r:staff_t:s0-s3") (lit "staff_u:staff_r:staff_t:s2").
Proof. apply selected_some; reflexivity. Qed.
Example selinux_ex_terminal : Terminal E0 (lit "/dev/tty1").
Proof. apply terminal_path. exists (lit "tty1"). split; reflexivity. Qed.
(** A level that is not within the default context is refused and audited. *)
Definition E_high : env :=
  mkEnv true true true (Some (lit "joe")) (fun u => Some u) (Some (lit "login")) (e_seuser E0) (e_contexts E0) true (fun _ => true) PAM_SUCCESS split_colon (fun _ => None) (fun _ _ => true) None
    (fun _ => true) (e_contains E0) (fun v => if streq v (lit "SELINUX_LEVEL_REQUESTED") then Some (lit "s9") else None) (Some None) None (fun _ => None) true (fun _ => Absent) true
    (fun _ _ => None) (fun _ _ => Stored) (fun _ => true) (fun _ => true) [].
Example selinux_ex_refused : open_session E_high [lit "env_params"] None =
  Done PAM_SESSION_ERR None [Audit false (lit "staff_u:staff_r:staff_t:s0-s3") (Some (lit "staff_u:staff_r:staff_t:s9")); Told].
Proof. reflexivity. Qed.
Example selinux_ex_no_context : forall s, ~ Context E_high [lit "env_params"] (lit "staff_u:staff_r:staff_t:s0-s3") s.
Proof. intros s H. pose proof (proj2 (selected_some E_high [lit "env_params"] (lit "staff_u:staff_r:staff_t:s0-s3") s eq_refl) (conj H eq_refl)) as K. discriminate. Qed.
(** Restored for a while, set again, and closed. *)
Example selinux_ex_calls : In_session [Open E0 [lit "restore"]; Open E0 []; Close E0 []] false.
Proof.
  apply (is_close [Open E0 [lit "restore"]; Open E0 []] E0 [] true); [|intros []]. apply (is_open [Open E0 [lit "restore"]] E0 [] false); [|intros [] | intros []].
  apply (is_restore [] E0 [lit "restore"] true); [constructor | intros [H | []]; discriminate | now left].
Qed.
Example selinux_ex_agrees : Agrees E0 W0 /\ forall p, e_setfile E0 p None <> Stored.
Proof.
  split; [split; [reflexivity|] | intros p; discriminate]. intros p c. cbn [e_getfile E0]. unfold W0. cbn [w_file]. destruct (streq p (lit "/dev/tty1")); intros H; inversion H; reflexivity.
Qed.

Print Assumptions selinux_context.
Print Assumptions selinux_context_given.
Print Assumptions selinux_refused.
Print Assumptions selinux_success.
Print Assumptions selinux_nothing_set.
Print Assumptions selinux_restored.
Print Assumptions selinux_enforced.
Print Assumptions selinux_only.
Print Assumptions selinux_permissive.
Print Assumptions selinux_audit.
Print Assumptions selinux_key_refuted.
Print Assumptions selinux_null_label_refuted.
Print Assumptions selinux_unknown_refuted.
(** C112: the end of a session, and a session taken up again, succeed if the context of the process can be set: a terminal that is gone is no error. *)
Theorem selinux_gone : forall E args d,
  (~ In (lit "open") args -> e_setexec E (d_prev_exec d) = true -> (forall f, d_tty d = Some f -> e_setfile E f (d_prev_tty d) = Stored \/ e_setfile E f (d_prev_tty d) = Gone) -> fst (close_session E args (Some d)) = PAM_SUCCESS) /\
  (~ In (lit "close") args -> ~ In (lit "restore") args -> e_setexec E (Some (d_exec d)) = true -> e_setkey E (Some (d_exec d)) = true ->
     (forall f, d_tty d = Some f -> e_setfile E f (d_tty_con d) = Stored \/ e_setfile E f (d_tty_con d) = Gone) -> exists fx, open_session E args (Some d) = Done PAM_SUCCESS (Some d) fx).
Proof.
  intros E args d. split.
  - intros N X F. apply given_false in N. unfold close_session, restore_context, set_file_context, set_exec_context. rewrite N, X. destruct (d_tty d) as [f|]; [|reflexivity]. destruct (F f eq_refl) as [-> | ->]; reflexivity.
  - intros N1 N2 X K F. apply given_false in N1, N2. unfold open_session, set_context, set_file_context, set_exec_context. rewrite N1, N2, X, K. destruct (d_tty d) as [f|]; [|cbn; eauto]. destruct (F f eq_refl) as [-> | ->]; cbn; eauto.
Qed.
(** A terminal that vanishes. *)
Definition E_gone : env :=
  mkEnv true true true (Some (lit "joe")) (fun u => Some u) (Some (lit "login")) (fun u s => if streq u (lit "joe") then Some (lit "staff_u", lit "s0-s3") else None)
    (fun u l => [(u ++ lit ":staff_r:staff_t:" ++ l)%list; (u ++ lit ":user_r:user_t:" ++ l)%list]) true (fun _ => true) PAM_SUCCESS split_colon
    (fun r => if streq r (lit "sysadm_r") then Some (lit "sysadm_t") else None) (fun _ _ => true) (Some (lit "system_u:system_r:login_t:s0")) (fun _ => true)
    (fun _ s => negb (streq s (lit "staff_u:staff_r:staff_t:s9"))) (fun v => if streq v (lit "SELINUX_ROLE_REQUESTED") then Some (lit "sysadm_r") else None)
    (Some None) (Some (lit "tty1")) (fun _ => None) true
    (fun p => if streq p (lit "/dev/tty1") then Label (lit "tty_t") else Absent) true (fun _ _ => Some (lit "user_tty_t")) (fun _ _ => Gone)
    (fun _ => true) (fun _ => true) [mkRound (Some (lit "y")) (Some (lit "none_r")) None; mkRound (Some (lit "Y")) None (Some (lit "s2")); mkRound None None None].
Example selinux_gone_example : fst (close_session E_gone [] (Some (mkData (lit "c") None (lit "c") (Some (lit "user_tty_t")) (Some (lit "tty_t")) (Some (lit "/dev/tty1"))))) = PAM_SUCCESS.
Proof. apply selinux_gone; [intros [] | reflexivity | intros f _; now right]. Qed.
Print Assumptions selinux_gone.
