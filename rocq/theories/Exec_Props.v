(** Theorems about pam_exec. *)
From Coq Require Import String Ascii List Arith ZArith Bool Lia.
From Verif Require Import Base Str_Model Str_Facts Opt_Model Opt_Facts Item_Model Umask_Model Modutil_Model Exec_Model.
From Verif Require Umask_Props Modutil_Props.
Import ListNotations.

(** ** The options *)
(** What an argument asks for. *)
Inductive wish := WNothing | WOut | WLog (f : cstr) | WType (ty : cstr) | WSetuid | WQuiet | WExpose.
(** A word in either case. *)
Definition word (w : string) (a : cstr) : Prop := map tolower a = map tolower (lit w).
(** The options there are. *)
Inductive asks (a : cstr) : wish -> Prop :=
| a_debug : word "debug" a -> asks a WNothing
| a_qlog : word "quiet_log" a -> asks a WNothing
| a_out : word "stdout" a -> asks a WOut
| a_log : forall f, Umask_Props.ikey (lit "log=") a f -> asks a (WLog f)
| a_type : forall ty, Umask_Props.ikey (lit "type=") a ty -> asks a (WType ty)
| a_setuid : word "seteuid" a -> asks a WSetuid
| a_quiet : word "quiet" a -> asks a WQuiet
| a_expose : word "expose_authtok" a -> asks a WExpose.
(** The options before the program: [os] are options that ask for [ws], and [rest] starts with the first argument that is not an option. *)
Definition leading (args os rest : list cstr) (ws : list wish) : Prop :=
  args = (os ++ rest)%list /\ Forall2 asks os ws /\ match rest with [] => True | a :: _ => forall w, ~ asks a w end.
(** The last log file named. *)
Definition last_log (ws : list wish) (l : option cstr) : Prop :=
  match l with
  | Some f => exists a b, ws = (a ++ WLog f :: b)%list /\ forall g, ~ In (WLog g) b
  | None => forall g, ~ In (WLog g) ws
  end.
Definition meant (ws : list wish) (o : opts) : Prop :=
  (o_out o = true <-> In WOut ws) /\ (o_setuid o = true <-> In WSetuid ws) /\ (o_quiet o = true <-> In WQuiet ws) /\ (o_expose o = true <-> In WExpose ws) /\ last_log ws (o_log o).

Definition add_wish (w : wish) (o : opts) : opts :=
  match w with
  | WOut => mkOpts true (o_log o) (o_setuid o) (o_quiet o) (o_expose o)
  | WLog f => mkOpts (o_out o) (Some f) (o_setuid o) (o_quiet o) (o_expose o)
  | WSetuid => mkOpts (o_out o) (o_log o) true (o_quiet o) (o_expose o)
  | WQuiet => mkOpts (o_out o) (o_log o) (o_setuid o) true (o_expose o)
  | WExpose => mkOpts (o_out o) (o_log o) (o_setuid o) (o_quiet o) true
  | _ => o
  end.
Lemma caseeq_word : forall w a, caseeq a (lit w) = true <-> word w a.
Proof. intros w a. unfold word. apply caseeq_iff. Qed.
Lemma caseeq_not : forall w a, caseeq a (lit w) = false -> ~ word w a.
Proof. intros w a H X. apply caseeq_word in X. congruence. Qed.
Lemma asks_slash : forall a w s, asks a w -> a <> ("/"%char :: s)%list.
Proof.
  intros a w s A ->. destruct A as [W|W|W|f (k & E & M)|f (k & E & M)|W|W|W]; try (unfold word in W; discriminate); destruct k; try discriminate; injection E as <- _; discriminate.
Qed.
(** One argument. *)
Lemma parse_step : forall type a rest o,
  (exists w, asks a w /\ parse type (a :: rest) o = match w with WType ty => if streq type ty then parse type rest o else None | w => parse type rest (add_wish w o) end) \/
  ((forall w, ~ asks a w) /\ parse type (a :: rest) o = Some (o, a :: rest)).
Proof.
  intros type a rest o. cbn [parse].
  destruct (match a with c :: _ => Ascii.eqb c "/"%char | [] => false end) eqn:SL.
  { right. split; [|reflexivity]. intros w A. destruct a as [|c s]; [discriminate|]. apply Ascii.eqb_eq in SL. subst c. exact (asks_slash _ _ s A eq_refl). }
  destruct (caseeq a (lit "debug")) eqn:C1; [left; exists WNothing; split; [apply a_debug, caseeq_word; exact C1|reflexivity]|].
  destruct (caseeq a (lit "stdout")) eqn:C2; [left; exists WOut; split; [apply a_out, caseeq_word; exact C2|reflexivity]|].
  destruct (skip_iprefix (lit "log=") a) as [f|] eqn:C3; [left; exists (WLog f); split; [apply a_log, Umask_Props.ikey_iff; exact C3|reflexivity]|].
  destruct (skip_iprefix (lit "type=") a) as [f|] eqn:C4; [left; exists (WType f); split; [apply a_type, Umask_Props.ikey_iff; exact C4|reflexivity]|].
  destruct (caseeq a (lit "seteuid")) eqn:C5; [left; exists WSetuid; split; [apply a_setuid, caseeq_word; exact C5|reflexivity]|].
  destruct (caseeq a (lit "quiet")) eqn:C6; [left; exists WQuiet; split; [apply a_quiet, caseeq_word; exact C6|reflexivity]|].
  destruct (caseeq a (lit "quiet_log")) eqn:C7; [left; exists WNothing; split; [apply a_qlog, caseeq_word; exact C7|reflexivity]|].
  destruct (caseeq a (lit "expose_authtok")) eqn:C8; [left; exists WExpose; split; [apply a_expose, caseeq_word; exact C8|reflexivity]|].
  right. split; [|reflexivity]. apply caseeq_not in C1, C2, C5, C6, C7, C8. intros w A. destruct A as [W|W|W|f W|f W|W|W|W]; try contradiction.
  - exact (Umask_Props.ikey_none _ _ C3 _ W).
  - exact (Umask_Props.ikey_none _ _ C4 _ W).
Qed.
Lemma parse_fold : forall type args o,
  match parse type args o with
  | Some (o', rest) => exists os ws, leading args os rest ws /\ (forall ty, In (WType ty) ws -> ty = type) /\ o' = fold_left (fun o w => add_wish w o) ws o
  | None => exists os ws a ty rest, args = (os ++ a :: rest)%list /\ Forall2 asks os ws /\ asks a (WType ty) /\ ty <> type
  end.
Proof.
  intros type args. induction args as [|a rest IH]; intro o.
  - exists [], []. split; [split; [reflexivity|]; split; [constructor|exact I]|]. split; [intros ty []|reflexivity].
  - destruct (parse_step type a rest o) as [(w & A & ->)|(N & ->)].
    + assert (G : forall o1, (forall ty, w = WType ty -> ty = type) -> o1 = add_wish w o ->
        match parse type rest o1 with
        | Some (o', rest0) => exists os ws, leading (a :: rest) os rest0 ws /\ (forall ty, In (WType ty) ws -> ty = type) /\ o' = fold_left (fun o w => add_wish w o) ws o
        | None => exists os ws a0 ty rest0, (a :: rest)%list = (os ++ a0 :: rest0)%list /\ Forall2 asks os ws /\ asks a0 (WType ty) /\ ty <> type
        end).
      { intros o1 TY ->. specialize (IH (add_wish w o)). destruct (parse type rest (add_wish w o)) as [[o' rest']|].
        - destruct IH as (os & ws & (-> & F & S0) & T & ->). exists (a :: os), (w :: ws). split; [split; [reflexivity|]; split; [constructor; assumption|exact S0]|]. split; [|reflexivity].
          intros ty [->|H]; [apply TY; reflexivity|apply T; exact H].
        - destruct IH as (os & ws & a0 & ty & rest0 & -> & F & A0 & N0). exists (a :: os), (w :: ws), a0, ty, rest0. repeat split; [constructor; assumption|assumption..]. }
      destruct w as [| |f|ty| | |]; try (apply G; [intros ty X; discriminate|reflexivity]).
      destruct (streq type ty) eqn:Q; [apply streq_eq in Q; subst ty; apply G; [intros ty X; congruence|reflexivity]|].
      exists [], [], a, ty, rest. repeat split; [constructor|exact A|]. intros ->. rewrite streq_refl in Q. discriminate.
    + exists [], []. split; [split; [reflexivity|]; split; [constructor|exact N]|]. split; [intros ty []|reflexivity].
Qed.
Lemma meant_fold : forall ws, meant ws (fold_left (fun o w => add_wish w o) ws (mkOpts false None false false false)).
Proof.
  intro ws. induction ws as [|w ws IH] using rev_ind.
  - split; [split; [discriminate|intros []]|]. split; [split; [discriminate|intros []]|]. split; [split; [discriminate|intros []]|]. split; [split; [discriminate|intros []]|]. intros g [].
  - rewrite fold_left_app. cbn [fold_left]. set (o := fold_left _ _ _) in *. clearbody o. destruct IH as (A & B & C & D & L).
    assert (X : forall v, In v (ws ++ [w]) <-> In v ws \/ v = w). { intro v. rewrite in_app_iff. cbn [In]. intuition congruence. }
    assert (LL : (forall f, w <> WLog f) -> last_log (ws ++ [w]) (o_log o)).
    { intro NW. unfold last_log in *. destruct (o_log o) as [f|].
      - destruct L as (a & b & -> & NB). exists a, (b ++ [w])%list. split; [rewrite <- app_assoc; reflexivity|]. intros g H. apply in_app_iff in H. destruct H as [H|[H|[]]]; [exact (NB g H)|exact (NW g H)].
      - intros g H. apply X in H. destruct H as [H|H]; [exact (L g H)|exact (NW g (eq_sym H))]. }
    unfold meant. destruct w as [| |f|ty| | |]; cbn [add_wish o_out o_log o_setuid o_quiet o_expose]; rewrite !X; (split; [intuition congruence|]); (split; [intuition congruence|]); (split; [intuition congruence|]); (split; [intuition congruence|]);
      try (apply LL; intros g H; discriminate).
    exists ws, []. split; [reflexivity|intros g []].
Qed.
(** C97: what the arguments mean: options up to the first argument that is none; the call is ignored exactly at a type= that is not the type of the call. *)
Theorem exec_options : forall type args,
  match parse type args (mkOpts false None false false false) with
  | Some (o, rest) => exists os ws, leading args os rest ws /\ (forall ty, In (WType ty) ws -> ty = type) /\ meant ws o
  | None => exists os ws a ty rest, args = (os ++ a :: rest)%list /\ Forall2 asks os ws /\ asks a (WType ty) /\ ty <> type
  end.
Proof.
  intros type args. pose proof (parse_fold type args (mkOpts false None false false false)) as H. destruct (parse type args _) as [[o rest]|]; [|exact H].
  destruct H as (os & ws & L & T & ->). exists os, ws. split; [exact L|]. split; [exact T|]. apply meant_fold.
Qed.

(** ** The calls *)
(** The password is handed over: the option is given, and the type is one that has a password. *)
Definition exposes (type : cstr) (o : opts) : Prop := o_expose o = true /\ (type = lit "auth" \/ type = lit "password").
(** The password: the item, or else the answer of the user. *)
Inductive token (E : env) : cstr -> option cstr -> Prop :=
| tok_item : forall p, x_item E 6 = (PAM_SUCCESS, Some p) -> token E p None
| tok_asked : forall p, x_item E 6 = (PAM_SUCCESS, None) -> x_prompt E = (PAM_SUCCESS, Some p) -> token E p (Some p)
| tok_none : x_item E 6 = (PAM_SUCCESS, None) -> x_prompt E = (PAM_SUCCESS, None) -> token E [] None.
Lemma get_token_iff : forall E buf item, get_token E = inr (buf, item) -> exists p, token E p item /\ buf = firstn 511 p.
Proof.
  intros E buf item H. unfold get_token in H. destruct (x_item E I_AUTHTOK) as [r v] eqn:I. destruct (Z.eqb_spec r PAM_SUCCESS) as [->|N]; [|discriminate]. cbn [negb] in H.
  destruct v as [p|]; [injection H as <- <-; exists p; split; [apply tok_item; exact I|reflexivity]|].
  destruct (x_prompt E) as [r v] eqn:P. destruct (Z.eqb_spec r PAM_SUCCESS) as [->|N]; [|discriminate]. cbn [negb] in H. destruct v as [p|]; injection H as <- <-.
  - exists p. split; [apply tok_asked; assumption|reflexivity].
  - exists []. split; [apply tok_none; assumption|reflexivity].
Qed.
Lemma get_token_fail : forall E rc, get_token E = inl rc -> rc <> PAM_SUCCESS.
Proof.
  intros E rc H. unfold get_token in H. destruct (x_item E I_AUTHTOK) as [r v]. destruct (Z.eqb_spec r PAM_SUCCESS) as [->|N]; cbn [negb] in H; [|congruence].
  destruct v as [p|]; [discriminate|]. destruct (x_prompt E) as [r v]. destruct (Z.eqb_spec r PAM_SUCCESS) as [->|N]; cbn [negb] in H; [destruct v; discriminate|].
  destruct (r =? PAM_CONV_AGAIN)%Z; injection H as <-; [discriminate|exact N].
Qed.
(** A pipe, if one is wanted. *)
Definition piped (E : env) (which wanted : bool) (p : option (nat * nat)) (t t' : fds) : Prop :=
  if wanted then exists r w, p = Some (r, w) /\ Modutil_Model.pipe (x_limit E) (negb (x_pipe E which)) t = Some (r, w, t') else p = None /\ t' = t.
(** How far a call gets. *)
Inductive call (E : env) (type : cstr) (args : list cstr) (t : fds) (x : outcome) : Prop :=
| c_early : r_child x = None -> r_rc x <> PAM_SUCCESS -> r_sent x = None -> r_buf x = [] -> r_said x = [] -> (forall p, r_item x = Some p -> token E p (Some p)) -> call E type args t x
| c_forked : forall o rest prog more ex tok out buf item t1 t2 c,
    parse type args (mkOpts false None false false false) = Some (o, rest) -> rest = prog :: more -> fst (x_user E) = PAM_SUCCESS ->
    (ex = true <-> exposes type o) -> (ex = true -> exists p, token E p item /\ buf = firstn 511 p) -> (ex = false -> buf = [] /\ item = None) ->
    piped E false ex tok t t1 -> piped E true (o_out o) out t1 t2 ->
    child E type o rest tok (match out with Some (r, w) => Some (w, r) | None => None end) t2 = Ok c ->
    r_child x = Some c -> (r_rc x, r_said x) = (fst (finish E o prog c), (match out with Some _ => map (fun l => Line (shown l)) (lines_of (x_output E)) | None => [] end ++ snd (finish E o prog c))%list) ->
    r_sent x = (if ex then Some (if x_write E then buf else []) else None) -> r_buf x = [] -> r_item x = item -> r_sig x = true ->
    r_fds x = match out with Some (r, w) => fun t => set_fd r None (set_fd w None t) | None => fun t => t end (match tok with Some (r, w) => set_fd w None (set_fd r None t2) | None => t2 end) ->
    call E type args t x.
Lemma call_cases : forall E type args t x, call_exec E type args t = Ok x -> call E type args t x.
Proof.
  intros E type args t x H. unfold call_exec in H. destruct args as [|a0 as0]; [injection H as <-; apply c_early; cbn; first [reflexivity|discriminate|exact IT]|]. set (args := a0 :: as0) in *. clearbody args.
  destruct (parse type args _) as [[o rest]|] eqn:P; [|injection H as <-; apply c_early; cbn; first [reflexivity|discriminate|exact IT]].
  destruct (x_user E) as [ur un] eqn:U. destruct (Z.eqb_spec ur PAM_SUCCESS) as [->|NU]; cbn [negb] in H.
  2:{ injection H as <-. apply c_early; cbn [r_child r_rc r_sent r_buf r_said r_item]; try reflexivity; try discriminate. destruct (ur =? PAM_CONV_AGAIN)%Z; [discriminate|exact NU]. }
  set (ex := o_expose o && (streq type (lit "auth") || streq type (lit "password"))) in *.
  assert (EX : ex = true <-> exposes type o). { unfold ex, exposes. rewrite andb_true_iff, orb_true_iff, !streq_eq. reflexivity. }
  assert (IT' : forall buf item, (ex = true -> exists p, token E p item /\ buf = firstn 511 p) -> (ex = false -> buf = [] /\ item = None) -> forall p, item = Some p -> token E p (Some p)).
  { intros buf item A B p X. destruct ex; [destruct (A eq_refl) as (q & K & _)|destruct (B eq_refl) as (_ & Y); congruence]. destruct K as [q K|q K1 K2|K1 K2]; try discriminate. injection X as ->. apply tok_asked; assumption. }
  assert (R : forall tok out buf item t1 t2, (ex = true -> exists p, token E p item /\ buf = firstn 511 p) -> (ex = false -> buf = [] /\ item = None) ->
    piped E false ex tok t t1 -> piped E true (o_out o) out t1 t2 -> run E type o rest tok out buf item t2 = Ok x -> call E type args t x).
  { intros tok out buf item t1 t2 HB HB' P1 P2 G. pose proof (IT' buf item HB HB') as IT. unfold run in G. destruct rest as [|prog more]; [injection G as <-; apply c_early; cbn; first [reflexivity|discriminate|exact IT]|].
    destruct (x_sigaction E); cbn [negb] in G; [|injection G as <-; apply c_early; cbn; first [reflexivity|discriminate|exact IT]]. destruct (x_fork E); cbn [negb] in G; [|injection G as <-; apply c_early; cbn; first [reflexivity|discriminate|exact IT]].
    destruct (child E type o (prog :: more) tok (match out with Some (r, w) => Some (w, r) | None => None end) t2) as [c| |] eqn:C; cbn [bind] in G; [|discriminate..].
    match type of G with (let '(_, _) := ?e in _) = _ => destruct e as [sent t3] eqn:S3 end.
    match type of G with (let '(_, _) := ?e in _) = _ => destruct e as [lines t4] eqn:S4 end.
    destruct (finish E o prog c) as [rc told] eqn:F. injection G as <-.
    apply (c_forked E type args t _ o (prog :: more) prog more ex tok out buf item t1 t2 c P eq_refl); cbn [r_rc r_said r_sent r_fds r_child r_buf r_item r_sig]; try assumption; try reflexivity.
    - rewrite U. reflexivity.
    - rewrite F. cbn [fst snd]. destruct out as [[r w]|]; injection S4 as <- _; reflexivity.
    - unfold piped in P1. destruct ex; [destruct P1 as (r & w & -> & _)|destruct P1 as (-> & _)]; injection S3 as <- _; reflexivity.
    - destruct tok as [[r w]|]; injection S3 as _ <-; destruct out as [[r' w']|]; injection S4 as _ <-; reflexivity. }
  assert (K : forall tok buf item t1, (ex = true -> exists p, token E p item /\ buf = firstn 511 p) -> (ex = false -> buf = [] /\ item = None) -> piped E false ex tok t t1 ->
    (if o_out o then match Modutil_Model.pipe (x_limit E) (negb (x_pipe E true)) t1 with
       | None => Ok (mkOut PAM_SYSTEM_ERR t1 None None (wipe buf) item [] true)
       | Some (r, w, t) => if x_fdopen E then run E type o rest tok (Some (r, w)) buf item t else Ok (mkOut PAM_SYSTEM_ERR t None None (wipe buf) item [] true)
       end else run E type o rest tok None buf item t1) = Ok x -> call E type args t x).
  { intros tok buf item t1 HB HB' P1 G. pose proof (IT' buf item HB HB') as IT. destruct (o_out o) eqn:OO; [|apply (R tok None buf item t1 t1 HB HB' P1); [unfold piped; auto|exact G]].
    destruct (Modutil_Model.pipe (x_limit E) (negb (x_pipe E true)) t1) as [[[r w] t2]|] eqn:P2; [|injection G as <-; apply c_early; cbn; first [reflexivity|discriminate|exact IT]].
    destruct (x_fdopen E); [|injection G as <-; apply c_early; cbn; first [reflexivity|discriminate|exact IT]]. apply (R tok (Some (r, w)) buf item t1 t2 HB HB' P1); [|exact G]. unfold piped. exists r, w. auto. }
  destruct ex.
  - destruct (get_token E) as [rc|[buf item]] eqn:GT; [injection H as <-; apply c_early; cbn; try reflexivity; try discriminate; exact (get_token_fail _ _ GT)|].
    destruct (Modutil_Model.pipe (x_limit E) (negb (x_pipe E false)) t) as [[[r w] t1]|] eqn:P1; [|pose proof (IT' buf item (fun _ => get_token_iff _ _ _ GT) ltac:(discriminate)) as IT; injection H as <-; apply c_early; cbn; first [reflexivity|discriminate|exact IT]].
    apply (K (Some (r, w)) buf item t1); [intros _; apply get_token_iff; exact GT|discriminate|unfold piped; exists r, w; auto|exact H].
  - apply (K None [] None t); [discriminate|auto|unfold piped; auto|exact H].
Qed.

(** C97: success is told only for a program that was run and ended with status 0, and always then; a child that cannot start the program makes
    the call fail. *)
Theorem exec_success : forall E type args t x, (0 < x_errno E < 256)%Z -> call_exec E type args t = Ok x ->
  (r_rc x = PAM_SUCCESS <-> x_wait E = true /\ x_status E = Exited 0 /\ exists im, r_child x = Some (Ran im)).
Proof.
  intros E type args t x ER H. apply call_cases in H. destruct H as [NC NR _ _ _ _|o rest prog more ex tok out buf item t1 t2 c _ _ _ _ _ _ _ _ C RC RR _ _ _ _ _].
  - split; [contradiction|]. intros (_ & _ & im & X). congruence.
  - injection RR as RR _. unfold finish in RR. destruct (x_wait E); cbn [negb fst] in RR; [|split; [intro; congruence|intros (X & _); discriminate]].
    assert (Q : forall code, c = Quits code -> (0 < code < 256)%Z).
    { intros code ->. unfold child in C. cbv zeta in C. repeat (match type of C with
        | bind ?e _ = _ => destruct e as [?| |]; cbn [bind] in C; [|discriminate C..]
        | match ?e with _ => _ end = _ => destruct e eqn:?
        | (let '(_, _) := ?e in _) = _ => destruct e eqn:? end); try discriminate C; injection C as <-; first [exact ER|lia]. }
    rewrite RC. destruct c as [im|code|]; cbn [status_of] in RR.
    + destruct (x_status E) as [[|p|p]|s core|raw] eqn:XS; cbn [fst] in RR; rewrite RR; split; try (intros X; discriminate X); try (intros (_ & X & _); discriminate X); [|reflexivity]. intros _. repeat split. exists im. reflexivity.
    + specialize (Q code eq_refl). rewrite Z.mod_small in RR by lia. destruct code as [|p|p]; [lia| |lia]. cbn [fst] in RR. rewrite RR. split; [intro X; discriminate X|]. intros (_ & _ & im & X). congruence.
    + cbn [fst] in RR. rewrite RR. split; [intro X; discriminate X|]. intros (_ & _ & im & X). congruence.
Qed.

(** ** Descriptors *)
Import Modutil_Props.
Lemma pipe_effect : forall l f t r w t', Modutil_Model.pipe l f t = Some (r, w, t') ->
  r <> w /\ table t r = None /\ table t w = None /\ pipes t' = Datatypes.S (pipes t) /\ forall n, table t' n = if (n =? r)%nat then Some (PipeRead (pipes t)) else if (n =? w)%nat then Some (PipeWrite (pipes t)) else table t n.
Proof.
  intros l f t r w t' H. unfold Modutil_Model.pipe in H. destruct f; [discriminate|]. destruct (new_fd l (PipeRead (pipes t)) t) as [[r1 t1]|] eqn:N1; [|discriminate].
  apply new_fd_free in N1. destruct N1 as (F1 & ->). destruct (new_fd l _ _) as [[w1 t2]|] eqn:N2; [|discriminate]. apply new_fd_free in N2. destruct N2 as (F2 & ->). injection H as -> -> <-.
  cbn [set_fd table pipes] in *. destruct (Nat.eqb_spec w r) as [X|NE]; [discriminate|]. repeat split; auto.
  intro n. destruct (Nat.eqb_spec n w); destruct (Nat.eqb_spec n r); congruence.
Qed.
Lemma pipe_not_yet : forall l f t r w t', Modutil_Model.pipe l f t = Some (r, w, t') -> not_yet t -> not_yet t'.
Proof.
  intros l f t r w t' H NY n i X. apply pipe_effect in H. destruct H as (_ & _ & _ & P & T). rewrite P. rewrite !T in X. destruct (n =? r)%nat, (n =? w)%nat; destruct X as [X|X]; try (injection X as <-; lia); try discriminate; specialize (NY n i); auto with arith.
Qed.
Lemma set_not_yet : forall n o t, not_yet t -> (forall i, o = Some (PipeRead i) \/ o = Some (PipeWrite i) -> (i < pipes t)%nat) -> not_yet (set_fd n o t).
Proof. intros n o t NY NO m i X. cbn [set_fd table pipes] in *. destruct (m =? n)%nat; [apply NO; exact X|apply (NY m i X)]. Qed.
Lemma close_not_yet : forall n t, not_yet t -> not_yet (set_fd n None t).
Proof. intros n t NY. apply set_not_yet; [exact NY|]. intros i [X|X]; discriminate. Qed.
Lemma copy_not_yet : forall n m t, not_yet t -> not_yet (set_fd n (table t m) t).
Proof. intros n m t NY. apply set_not_yet; [exact NY|]. intros i X. exact (NY m i X). Qed.
Lemma move_effect : forall fuel E fd t o fd' t', table t fd = Some o -> move_fd fuel E fd t = Ok (Some (fd', t')) ->
  (3 <= fd')%nat /\ table t' fd' = Some o /\ (fd' = fd \/ table t fd' = None) /\ (forall n, table t n <> None -> table t' n = table t n) /\ (not_yet t -> not_yet t') /\ pipes t' = pipes t.
Proof.
  induction fuel as [|k IH]; intros E fd t o fd' t' T H; cbn [move_fd] in H; destruct (Nat.ltb_spec fd 3) as [L|L]; try discriminate; try (injection H as <- <-; repeat split; auto).
  rewrite T in H. destruct (x_dup E fd); cbn [negb] in H; [|discriminate]. destruct (new_fd (x_limit E) o t) as [[n t1]|] eqn:N; [|discriminate]. apply new_fd_free in N. destruct N as (F & ->).
  destruct (IH E n (set_fd n (Some o) t) o fd' t') as (A & B & C & D & G & P); [cbn [set_fd table]; rewrite Nat.eqb_refl; reflexivity|exact H|]. cbn [set_fd table pipes] in *.
  split; [exact A|]. split; [exact B|]. split; [|split; [|split; [|exact P]]].
  - right. destruct C as [->|C]; [exact F|]. destruct (fd' =? n)%nat; [discriminate|exact C].
  - intros m M. specialize (D m). destruct (Nat.eqb_spec m n) as [X|]; [rewrite X in M; contradiction|]. apply D, M.
  - intro NY. apply G. rewrite <- T. apply copy_not_yet, NY.
Qed.
Definition free3 (t : fds) : nat := length (filter (fun n => match table t n with None => true | Some _ => false end) [0; 1; 2]%nat).
Lemma move_fuel : forall fuel E fd t, (free3 t < fuel)%nat -> exists m, move_fd fuel E fd t = Ok m.
Proof.
  induction fuel as [|k IH]; intros E fd t L; [lia|]. cbn [move_fd]. destruct (fd <? 3)%nat; [|eexists; reflexivity]. destruct (table t fd) as [o|] eqn:T; [|eexists; reflexivity].
  destruct (x_dup E fd); cbn [negb]; [|eexists; reflexivity]. destruct (new_fd (x_limit E) o t) as [[n t1]|] eqn:N; [|eexists; reflexivity]. apply new_fd_free in N. destruct N as (F & ->).
  destruct (Nat.lt_ge_cases n 3) as [L3|G3].
  - apply IH. enough (free3 (set_fd n (Some o) t) < free3 t)%nat by lia. unfold free3. cbn [filter set_fd table].
    destruct n as [|[|[|n]]]; [..|lia]; cbn [Nat.eqb]; rewrite F; destruct (table t 0), (table t 1), (table t 2); cbn [length]; try lia; discriminate.
  - destruct k; cbn [move_fd]; (destruct (Nat.ltb_spec n 3); [lia|]); eexists; reflexivity.
Qed.
Lemma free3_le : forall t, (free3 t <= 3)%nat.
Proof. intro t. unfold free3. cbn [filter]. destruct (table t 0), (table t 1), (table t 2); cbn [length]; lia. Qed.
Lemma open_log_effect : forall E t t', open_log E t = (true, t') -> table t' 1 = Some (Before (x_log E)) /\ (forall n, n <> 1%nat -> table t' n = table t n) /\ (not_yet t -> not_yet t') /\ pipes t' = pipes t.
Proof.
  intros E t t' H. unfold open_log in H. destruct (x_open E); [|discriminate]. destruct (new_fd (x_limit E) (Before (x_log E)) (set_fd 1 None t)) as [[i t1]|] eqn:N; [|discriminate].
  apply new_fd_free in N. destruct N as (F & ->).
  assert (NY : not_yet t -> not_yet (set_fd i (Some (Before (x_log E))) (set_fd 1 None t))).
  { intro NY. apply set_not_yet; [apply close_not_yet, NY|]. intros j [X|X]; discriminate. }
  destruct (Nat.eqb_spec i 1) as [->|NE].
  - injection H as <-. split; [reflexivity|]. split; [|split; [exact NY|reflexivity]]. intros n NN. cbn [set_fd table]. destruct (Nat.eqb_spec n 1); [contradiction|reflexivity].
  - unfold dup2 in H. destruct (x_dup2 E 1); cbn [negb] in H; [|discriminate]. injection H as <-.
    split; [|split; [|split; [intro Y; apply close_not_yet; exact (copy_not_yet 1 i _ (NY Y))|reflexivity]]]; cbn [set_fd table] in *.
    + destruct (Nat.eqb_spec 1 i) as [X|_]; [congruence|]. rewrite !Nat.eqb_refl. reflexivity.
    + intros n NN. destruct (Nat.eqb_spec n 1) as [|_]; [contradiction|]. destruct (Nat.eqb_spec n i) as [->|]; [|reflexivity]. destruct (Nat.eqb_spec i 1); [contradiction|congruence].
Qed.
(** What the child keeps of the pipes. *)
Lemma take_effect : forall E p t fd t', take_end E p t = Ok (Some (fd, t')) -> not_yet t ->
  (forall mine other, p = Some (mine, other) -> mine <> other /\ table t mine <> None /\ table t other <> None) ->
  not_yet t' /\ pipes t' = pipes t /\ (forall n, table t n <> None -> (forall mine other, p = Some (mine, other) -> n <> other) -> table t' n = table t n) /\
  (forall mine other, p = Some (mine, other) -> (3 <= fd)%nat /\ table t' fd = table t mine /\ (fd = mine \/ table t fd = None)).
Proof.
  intros E p t fd t' H NY W. destruct p as [[mine other]|]; cbn [take_end] in H.
  - destruct (W mine other eq_refl) as (NE & M & O). destruct (table t mine) as [o|] eqn:T; [|contradiction]. destruct (move_fd 4 E mine t) as [[[fd1 t1]|]| |] eqn:MV; cbn [bind] in H; try discriminate. injection H as -> <-.
    apply (move_effect _ _ _ _ _ _ _ T) in MV. destruct MV as (A & B & C & D & G & P). split; [apply close_not_yet, G, NY|]. split; [exact P|]. cbn [set_fd table]. split.
    + intros n N X. specialize (X mine other eq_refl). destruct (Nat.eqb_spec n other) as [|_]; [contradiction|]. apply D, N.
    + intros m o' X. injection X as <- <-. rewrite T. split; [exact A|]. destruct (Nat.eqb_spec fd other) as [->|_]; [destruct C; [congruence|contradiction]|]. split; [exact B|exact C].
  - injection H as <- <-. repeat split; auto; discriminate.
Qed.
Definition ends_ok (t : fds) (p : option (nat * nat)) : Prop := forall mine other, p = Some (mine, other) -> mine <> other /\ table t mine <> None /\ table t other <> None.
Definition apart (p q : option (nat * nat)) : Prop := forall a b c d, p = Some (a, b) -> q = Some (c, d) -> a <> c /\ a <> d /\ b <> c /\ b <> d.
Lemma child_ran : forall E type o rest tok out t im, child E type o rest tok out t = Ok (Ran im) -> not_yet t -> ends_ok t tok -> ends_ok t out -> apart tok out ->
  im_path im = hd [] rest /\ im_argv im = rest /\ (exists l l', x_envlist E = Some l /\ add_items E type env_items = Some l' /\ im_env im = (l ++ l')%list) /\
  im_euid im = x_euid E /\ im_ruid im = (if o_setuid o && x_priv E then x_euid E else x_ruid E) /\ (o_setuid o = true -> x_setuid E = true) /\
  match tok with Some (m, _) => table (im_fds im) 0 = table t m | None => exists n, table (im_fds im) 0 = Some (PipeRead n) /\ (pipes t <= n)%nat end /\
  (forall n, n = 1%nat \/ n = 2%nat -> table (im_fds im) n = match out, o_log o with Some (m, _), _ => table t m | None, Some _ => Some (Before (x_log E)) | None, None => Some DevNull end) /\
  (forall n, (2 < n)%nat -> x_range E = true \/ (Z.of_nat n < Z.min 65536 (match x_rlim E with Some m => m | None => 65536 end))%Z -> table (im_fds im) n = None).
Proof.
  intros E type o rest tok out t im H NY W1 W2 AP. unfold child in H. cbv zeta in H.
  destruct (take_end E tok t) as [[[r t1]|]| |] eqn:T1; cbn [bind] in H; try discriminate. destruct (take_effect _ _ _ _ _ T1 NY W1) as (NY1 & P1 & K1 & R1).
  assert (W2' : ends_ok t1 out).
  { intros a b X. destruct (W2 a b X) as (N & A & B). split; [exact N|]. rewrite !K1; [auto|exact B| |exact A|]; intros c d Y; destruct (AP c d a b Y X) as (? & ? & ? & ?); congruence. }
  destruct (take_end E out t1) as [[[w t2]|]| |] eqn:T2; cbn [bind] in H; try discriminate. destruct (take_effect _ _ _ _ _ T2 NY1 W2') as (NY2 & P2 & K2 & R2).
  (* the ends kept *)
  assert (KR : forall m d, tok = Some (m, d) -> (3 <= r)%nat /\ table t2 r = table t m).
  { intros m d X. destruct (R1 m d X) as (A & B & C). destruct (W1 m d X) as (_ & M & _). split; [exact A|]. rewrite K2; [exact B|congruence|]. intros a b Y ->. destruct (AP m d a b X Y) as (_ & Q & _ & _). destruct C as [C|C]; [congruence|]. destruct (W2 a b Y) as (_ & _ & Z). contradiction. }
  assert (KW : forall m d, out = Some (m, d) -> (3 <= w)%nat /\ table t2 w = table t m).
  { intros m d X. destruct (R2 m d X) as (A & B & C). split; [exact A|]. rewrite B. destruct (W2 m d X) as (_ & M & _). apply K1; [exact M|]. intros a b Y. destruct (AP a b m d Y X) as (_ & _ & Q & _). congruence. }
  match type of H with (let '(_, _) := ?e in _) = _ => destruct e as [ok t3] eqn:D0 end. destruct ok; cbn [negb] in H; [|discriminate].
  assert (S3 : not_yet t3 /\ pipes t3 = pipes t /\ (forall m d, tok = Some (m, d) -> table t3 0 = table t m) /\ (forall n, (2 < n)%nat -> table t3 n = table t2 n)).
  { destruct tok as [[m d]|].
    - unfold dup2 in D0. destruct (x_dup2 E 0); cbn [negb] in D0; [|discriminate]. injection D0 as <-. split; [apply copy_not_yet, NY2|]. split; [cbn; lia|]. split.
      + intros m' d' X. rewrite <- (proj2 (KR _ _ X)). reflexivity.
      + intros n N. cbn [set_fd table]. destruct (Nat.eqb_spec n 0); [lia|reflexivity].
    - injection D0 as <-. split; [exact NY2|]. split; [lia|]. split; [discriminate|auto]. }
  clear D0. destruct S3 as (NY3 & P3 & Z3 & H3).
  match type of H with (let '(_, _) := ?e in _) = _ => destruct e as [ok t4] eqn:D1 end. destruct ok; cbn [negb] in H; [|discriminate].
  assert (S4 : not_yet t4 /\ pipes t4 = pipes t /\ table t4 0 = table t3 0 /\ match out, o_log o with Some (m, _), _ => table t4 1 = table t m | None, Some _ => table t4 1 = Some (Before (x_log E)) | None, None => True end).
  { destruct out as [[m d]|].
    - unfold dup2 in D1. destruct (x_dup2 E 1); cbn [negb] in D1; [|discriminate]. injection D1 as <-. destruct (KW m d eq_refl) as (L & X). split; [apply copy_not_yet, NY3|]. split; [exact P3|]. split; [reflexivity|].
      cbn [set_fd table Nat.eqb]. rewrite H3 by lia. exact X.
    - destruct (o_log o); [|injection D1 as <-; auto]. apply open_log_effect in D1. destruct D1 as (A & B & C & P). split; [apply C, NY3|]. split; [lia|]. split; [apply B; lia|exact A]. }
  clear D1. destruct S4 as (NY4 & P4 & Z4 & O4).
  match type of H with (let '(_, _) := ?e in _) = _ => destruct e as [ok t5] eqn:D2 end. destruct ok; cbn [negb] in H; [|discriminate].
  set (redir := match out with Some _ => true | None => match o_log o with Some _ => true | None => false end end) in *.
  assert (S5 : not_yet t5 /\ pipes t5 = pipes t /\ table t5 0 = table t3 0 /\ (redir = true -> table t5 1 = table t4 1 /\ table t5 2 = table t4 1)).
  { destruct redir.
    - unfold dup2 in D2. destruct (x_dup2 E 2); cbn [negb] in D2; [|discriminate]. injection D2 as <-. split; [apply copy_not_yet, NY4|]. auto.
    - injection D2 as <-. split; [exact NY4|]. split; [exact P4|]. split; [exact Z4|discriminate]. }
  clear D2. destruct S5 as (NY5 & P5 & Z5 & O5).
  match type of H with (let '(_, _) := ?e in _) = _ => destruct e as [ok t6] eqn:SA end. destruct ok; cbn [negb] in H; [|discriminate].
  apply helper_descriptors in SA; [|exact NY5]. destruct SA as (S0 & S1 & S2 & _ & CL & _).
  destruct (o_setuid o && negb (x_setuid E)) eqn:SU; [discriminate|]. destruct (x_setsid E); cbn [negb] in H; [|discriminate]. destruct (x_calloc E); cbn [negb] in H; [|discriminate].
  destruct (x_envlist E) as [l|]; [|discriminate]. destruct (x_realloc E); cbn [negb] in H; [|discriminate]. destruct (add_items E type env_items) as [l'|]; [|discriminate].
  destruct (x_exec E); [|discriminate]. injection H as <-. cbn [im_path im_argv im_env im_fds im_ruid im_euid].
  split; [reflexivity|]. split; [reflexivity|]. split; [exists l, l'; auto|]. split; [reflexivity|]. split; [reflexivity|]. split.
  { intro X. rewrite X in SU. destruct (x_setuid E); [reflexivity|discriminate]. }
  split; [|split; [|exact CL]].
  - destruct tok as [[m d]|]; cbn [redirected] in S0; [rewrite S0, Z5; exact (Z3 m d eq_refl)|]. destruct S0 as (n & A & B). exists n. split; [exact A|lia].
  - destruct out as [[m d]|]; [|destruct (o_log o)]; cbn [redir redirected] in *; try (destruct (O5 eq_refl) as (A & B)); intros n [->| ->]; congruence.
Qed.
(** The variables for the items: one for each item that is set. *)
Inductive given (E : env) (i : Z) (name : cstr) : list cstr -> Prop :=
| g_set : forall v, x_item E i = (PAM_SUCCESS, Some v) -> given E i name [(name ++ lit "=" ++ v)%list]
| g_unset : (forall v, x_item E i <> (PAM_SUCCESS, Some v)) -> given E i name [].
Lemma add_items_given : forall E type items l, add_items E type items = Some l ->
  exists ls, Forall2 (fun p => given E (fst p) (snd p)) items ls /\ l = (concat ls ++ [lit "PAM_TYPE=" ++ type])%list.
Proof.
  intros E type items. induction items as [|[i name] items IH]; intros l H; cbn [add_items] in H.
  - destruct (x_asprintf E (lit "PAM_TYPE")); [|discriminate]. injection H as <-. exists []. split; [constructor|reflexivity].
  - assert (SK : (forall v, x_item E i <> (PAM_SUCCESS, Some v)) -> add_items E type items = Some l -> exists ls, Forall2 (fun p => given E (fst p) (snd p)) ((i, name) :: items) ls /\ l = (concat ls ++ [lit "PAM_TYPE=" ++ type])%list).
    { intros N G. destruct (IH l G) as (ls & F & ->). exists ([] :: ls). split; [constructor; [apply g_unset; exact N|exact F]|reflexivity]. }
    destruct (x_item E i) as [r v] eqn:X. destruct v as [v|]; [|apply SK; [intros v; congruence|exact H]].
    destruct (Z.eqb_spec r PAM_SUCCESS) as [->|N]; cbn [negb] in H; [|apply SK; [intros v'; congruence|exact H]].
    destruct (x_asprintf E name); cbn [negb] in H; [|discriminate]. destruct (add_items E type items) as [l1|]; [|discriminate]. cbn [option_map] in H. injection H as <-.
    destruct (IH l1 eq_refl) as (ls & F & ->). exists ([(name ++ lit "=" ++ v)%list] :: ls). split; [constructor; [apply g_set; exact X|exact F]|reflexivity].
Qed.
Lemma ends : forall E type args t x c, call_exec E type args t = Ok x -> r_child x = Some c -> not_yet t ->
  exists os ws o prog more tok out t2, leading args os (prog :: more) ws /\ (forall ty, In (WType ty) ws -> ty = type) /\ meant ws o /\ fst (x_user E) = PAM_SUCCESS /\
    child E type o (prog :: more) tok out t2 = Ok c /\ not_yet t2 /\ ends_ok t2 tok /\ ends_ok t2 out /\ apart tok out /\ (pipes t <= pipes t2)%nat /\
    match tok with Some (m, _) => exposes type o /\ table t2 m = Some (PipeRead (pipes t)) | None => ~ exposes type o end /\
    match out with Some (m, _) => o_out o = true /\ (exists k, table t2 m = Some (PipeWrite k) /\ k = (pipes t + match tok with Some _ => 1 | None => 0 end)%nat) | None => o_out o = false end.
Proof.
  intros E type args t x c H RC NY. apply call_cases in H. destruct H as [NC _ _ _ _ _|o rest prog more ex tok out buf item t1 t2 c' P R U EX _ _ P1 P2 C RC' _ _ _ _ _ _]; [congruence|].
  rewrite RC in RC'. injection RC' as <-. subst rest. pose proof (exec_options type args) as O. rewrite P in O. destruct O as (os & ws & L & T & M).
  exists os, ws, o, prog, more, tok, (match out with Some (r, w) => Some (w, r) | None => None end), t2. split; [exact L|]. split; [exact T|]. split; [exact M|]. split; [exact U|]. split; [exact C|].
  assert (Q1 : not_yet t1 /\ (pipes t1 = pipes t + match tok with Some _ => 1 | None => 0 end)%nat /\ match tok with Some (m, d) => exposes type o /\ m <> d /\ table t1 m = Some (PipeRead (pipes t)) /\ table t1 d <> None | None => ~ exposes type o end).
  { unfold piped in P1. destruct ex.
    - destruct P1 as (r & w & -> & P1). split; [exact (pipe_not_yet _ _ _ _ _ _ P1 NY)|]. apply pipe_effect in P1. destruct P1 as (NE & _ & _ & PP & TT). split; [lia|]. split; [apply EX; reflexivity|]. split; [exact NE|].
      rewrite !TT, !Nat.eqb_refl. split; [reflexivity|]. destruct (w =? r)%nat; discriminate.
    - destruct P1 as (-> & ->). split; [exact NY|]. split; [lia|]. intro X. apply EX in X. discriminate. }
  destruct Q1 as (NY1 & PP1 & Q1). unfold piped in P2. destruct (o_out o).
  - destruct P2 as (r & w & -> & P2). pose proof (pipe_not_yet _ _ _ _ _ _ P2 NY1) as NY2. apply pipe_effect in P2. destruct P2 as (NE & FR & FW & PP & TT).
    assert (K : forall n, table t1 n <> None -> n <> r /\ n <> w /\ table t2 n = table t1 n). { intros n N. assert (n <> r /\ n <> w) as (A & B) by (split; intros ->; contradiction). rewrite TT. destruct (Nat.eqb_spec n r); [contradiction|]. destruct (Nat.eqb_spec n w); [contradiction|auto]. }
    split; [exact NY2|]. split.
    { intros a b X. subst tok. destruct Q1 as (_ & N & A & B). destruct (K a) as (_ & _ & KA); [congruence|]. destruct (K b) as (_ & _ & KB); [exact B|]. rewrite KA, KB. repeat split; [exact N|congruence|exact B]. }
    split; [intros a b X; injection X as <- <-; rewrite !TT, !Nat.eqb_refl; split; [congruence|]; split; [destruct (w =? r)%nat|]; discriminate|].
    split.
    { intros a b c0 d X Y. injection Y as <- <-. subst tok. destruct Q1 as (_ & N & A & B). destruct (K a) as (? & ? & _); [congruence|]. destruct (K b) as (? & ? & _); [exact B|]. auto. }
    split; [lia|]. split.
    + destruct tok as [[m d]|]; [|exact Q1]. destruct Q1 as (X & _ & A & _). split; [exact X|]. rewrite (proj2 (proj2 (K m ltac:(congruence)))). exact A.
    + split; [reflexivity|]. exists (pipes t1). rewrite TT, Nat.eqb_refl. split; [|exact PP1]. destruct (Nat.eqb_spec w r); [congruence|reflexivity].
  - destruct P2 as (-> & ->). split; [exact NY1|]. split; [intros a b ->; destruct Q1 as (_ & N & A & B); repeat split; [exact N|congruence|exact B]|]. split; [discriminate|]. split; [discriminate|]. split; [lia|].
    split; [|reflexivity]. destruct tok as [[m d]|]; [|exact Q1]. destruct Q1 as (X & _ & A & _). auto.
Qed.

(** ** The theorems *)
(** The type handed over by a service function that runs the program; the other two run nothing. *)
Inductive kind : service -> cstr -> Prop :=
| k_auth : kind SAuth (lit "auth") | k_password : kind (SPassword false) (lit "password") | k_account : kind SAccount (lit "account")
| k_open : kind SOpen (lit "open_session") | k_close : kind SClose (lit "close_session").
Lemma serve_kind : forall E s args t, (exists type, kind s type /\ serve E s args t = call_exec E type args t) \/
  ((s = SCred \/ s = SPassword true) /\ serve E s args t = Ok (mkOut (match s with SCred => PAM_IGNORE | _ => PAM_SUCCESS end) t None None [] None [] true)).
Proof. intros E [| |[|]| | |] args t; first [left; eexists; split; [constructor|reflexivity]|right; split; [auto|reflexivity]]. Qed.

(** C97: the program run is the first argument that is not an option, with that and everything after it as its arguments; its environment is the
    PAM environment, then a variable for each of five items that is set, then PAM_TYPE; it runs with the effective user id, which is the real one
    too only with seteuid and privilege. Nothing runs for pam_setcred nor in the preliminary check of a password change. *)
Theorem exec_program : forall E s args t x im, not_yet t -> serve E s args t = Ok x -> r_child x = Some (Ran im) ->
  exists type os ws l ls, kind s type /\ leading args os (im_argv im) ws /\ (forall ty, In (WType ty) ws -> ty = type) /\ hd_error (im_argv im) = Some (im_path im) /\
    fst (x_user E) = PAM_SUCCESS /\ x_envlist E = Some l /\ im_env im = (l ++ concat ls ++ [lit "PAM_TYPE=" ++ type])%list /\
    Forall2 (fun p => given E (fst p) (lit (snd p))) [(1, "PAM_SERVICE"); (2, "PAM_USER"); (3, "PAM_TTY"); (4, "PAM_RHOST"); (8, "PAM_RUSER")]%Z%string ls /\
    im_euid im = x_euid E /\ (In WSetuid ws -> x_setuid E = true) /\ (In WSetuid ws /\ x_priv E = true -> im_ruid im = x_euid E) /\ (~ (In WSetuid ws /\ x_priv E = true) -> im_ruid im = x_ruid E).
Proof.
  intros E s args t x im NY H RC. destruct (serve_kind E s args t) as [(type & K & Q)|(_ & Q)]; rewrite Q in H; [|injection H as <-; discriminate].
  destruct (ends _ _ _ _ _ _ H RC NY) as (os & ws & o & prog & more & tok & out & t2 & L & T & M & U & C & NY2 & W1 & W2 & AP & _ & _ & _).
  apply child_ran in C; try assumption. destruct C as (P & A & (l & l' & X & AI & EV) & EU & RU & SU & _). apply add_items_given in AI. destruct AI as (ls & F & ->).
  exists type, os, ws, l, ls. split; [exact K|]. rewrite A, P. split; [exact L|]. split; [exact T|]. split; [reflexivity|]. split; [exact U|]. split; [exact X|]. split; [exact EV|]. split.
  { unfold env_items in F. repeat match goal with F : Forall2 _ (_ :: _) _ |- _ => inversion F as [|? ? ? ? ? ?]; clear F; subst end. match goal with F : Forall2 _ [] _ |- _ => inversion F end. repeat (constructor; [assumption|]). constructor. }
  destruct M as (_ & MS & _). split; [exact EU|]. rewrite RU. split; [intro Y; apply SU, MS, Y|]. split.
  - intros (Y & Z). apply MS in Y. rewrite Y, Z. reflexivity.
  - intro N. destruct (o_setuid o) eqn:OS; [|reflexivity]. destruct (x_priv E); [|reflexivity]. exfalso. apply N. split; [apply MS; reflexivity|reflexivity].
Qed.
(** C97: the descriptors of the program. stdin is the read end of the pipe the password is written to, or of a fresh one; stdout and stderr are the
    write end of a fresh pipe, the log file, or /dev/null; nothing else is open. *)
Theorem exec_descriptors : forall E s args t x im, not_yet t -> serve E s args t = Ok x -> r_child x = Some (Ran im) ->
  exists type os ws, kind s type /\ leading args os (im_argv im) ws /\
    (r_sent x <> None -> table (im_fds im) 0 = Some (PipeRead (pipes t))) /\
    (exists n, table (im_fds im) 0 = Some (PipeRead n) /\ (pipes t <= n)%nat) /\
    (forall n, n = 1%nat \/ n = 2%nat ->
       (In WOut ws -> exists k, table (im_fds im) n = Some (PipeWrite k) /\ (pipes t <= k)%nat /\ table (im_fds im) 0 <> Some (PipeRead k)) /\
       (~ In WOut ws -> (exists f, In (WLog f) ws) -> table (im_fds im) n = Some (Before (x_log E))) /\
       (~ In WOut ws -> (forall f, ~ In (WLog f) ws) -> table (im_fds im) n = Some DevNull)) /\
    (forall n, (2 < n)%nat -> x_range E = true \/ (Z.of_nat n < Z.min 65536 (match x_rlim E with Some m => m | None => 65536 end))%Z -> table (im_fds im) n = None).
Proof.
  intros E s args t x im NY H RC. destruct (serve_kind E s args t) as [(type & K & Q)|(_ & Q)]; rewrite Q in H; [|injection H as <-; discriminate].
  destruct (ends _ _ _ _ _ _ H RC NY) as (os & ws & o & prog & more & tok & out & t2 & L & T & M & U & C & NY2 & W1 & W2 & AP & PM & TK & OU).
  pose proof C as C'. apply child_ran in C; try assumption. destruct C as (P & A & _ & _ & _ & _ & IN & OUT & CL).
  exists type, os, ws. split; [exact K|]. rewrite A. split; [exact L|]. destruct M as (MO & _ & _ & ME & ML). split.
  { intro SE. apply call_cases in H. destruct H as [NC _ _ _ _ _|o' rest' prog' more' ex tok' out' buf item t1 t2' c P' R' _ EX _ _ _ _ _ _ _ SN _ _ _ _]; [congruence|].
    pose proof (exec_options type args) as O. rewrite P' in O. destruct ex; [|congruence].
    destruct tok as [[m d]|]; [destruct TK as (_ & TK); rewrite IN; exact TK|]. exfalso. apply TK. destruct (proj1 EX eq_refl) as (X & Y).
    destruct O as (os' & ws' & (AR & FF & ST) & _ & (_ & _ & _ & ME' & _)). split; [|exact Y]. apply ME. apply ME' in X. subst rest'. destruct L as (AR' & FF' & ST').
    (* both readings of the arguments are the same *)
    clear - AR FF ST AR' FF' ST' X.
    assert (AF : forall a v w, asks a v -> asks a w -> v = w).
    { clear. intros a v w A B. destruct A as [A|A|A|f A|f A|A|A|A]; destruct B as [B|B|B|g B|g B|B|B|B]; try reflexivity; try (unfold word in A, B; rewrite A in B; discriminate);
        try (rewrite (Umask_Props.ikey_unique _ _ _ _ A B); reflexivity).
      all: try (destruct A as (k & -> & A)); try (destruct B as (k' & EB & B)); try subst; unfold word in *; try rewrite map_app in *; try rewrite A in *; try rewrite B in *; cbn [map lit app] in *; try discriminate.
      all: apply (f_equal (map tolower)) in EB; rewrite !map_app, A, B in EB; discriminate. }
    revert os' ws' AR FF X. subst args. revert ws FF'. induction os as [|a os IH]; intros ws FF' os' ws' AR FF X.
    - inversion FF'; subst. destruct os' as [|a' os']; [inversion FF; subst; contradiction|]. inversion FF; subst. cbn in AR. injection AR as <- _. exfalso. eapply ST'; eassumption.
    - inversion FF' as [|? w ? ws1 AW FW]; subst. destruct os' as [|a' os']; [cbn in AR; subst; inversion FF; subst; contradiction|]. inversion FF as [|? w' ? ws1' AW' FW']; subst. cbn in AR. injection AR as <- AR.
      destruct X as [->|X]; [left; exact (AF _ _ _ AW AW')|right; exact (IH ws1 FW os' ws1' AR FW' X)]. }
  split; [destruct tok as [[m d]|]; [exists (pipes t); split; [rewrite IN; apply TK|lia]|destruct IN as (n & X & Y); exists n; split; [exact X|lia]]|]. split; [|exact CL].
  intros n N. specialize (OUT n N). split; [|split].
  - intro X. apply MO in X. destruct out as [[m d]|]; [|congruence]. destruct OU as (_ & k & KT & KE). exists k. rewrite OUT. split; [exact KT|]. split; [lia|]. destruct tok as [[m' d']|].
    + rewrite IN. destruct TK as (_ & TK). rewrite TK. intro Y. injection Y as Y. lia.
    + destruct IN as (j & -> & J). intro Y. injection Y as Y. subst j k. destruct (W2 m d eq_refl) as (_ & _ & _). pose proof (NY2 m (pipes t + 0)%nat (or_intror KT)). lia.
  - intros X (f & Y). destruct out as [[m d]|]; [exfalso; apply X, MO, OU|]. rewrite OUT. destruct (o_log o); [reflexivity|]. exfalso. exact (ML f Y).
  - intros X Y. destruct out as [[m d]|]; [exfalso; apply X, MO, OU|]. rewrite OUT. destruct (o_log o) as [f|]; [|reflexivity]. exfalso. destruct ML as (a & b & -> & _). apply (Y f). apply in_or_app. right. left. reflexivity.
Qed.
(** C97: after the program was started the caller has exactly the descriptors it had, and its handler of SIGCHLD back. *)
Theorem exec_parent : forall E s args t x c, serve E s args t = Ok x -> r_child x = Some c -> (forall n, table (r_fds x) n = table t n) /\ r_sig x = true.
Proof.
  intros E s args t x c H RC. destruct (serve_kind E s args t) as [(type & K & Q)|(_ & Q)]; rewrite Q in H; [|injection H as <-; discriminate].
  apply call_cases in H. destruct H as [NC _ _ _ _ _|o rest prog more ex tok out buf item t1 t2 c' P R U EX _ _ P1 P2 C RC' _ _ _ _ SG FD]; [congruence|]. split; [|exact SG]. intro n. rewrite FD.
  assert (A : table t1 n = match tok with Some (r, w) => if (n =? r)%nat then Some (PipeRead (pipes t)) else if (n =? w)%nat then Some (PipeWrite (pipes t)) else table t n | None => table t n end /\
    match tok with Some (r, w) => table t r = None /\ table t w = None | None => True end).
  { unfold piped in P1. destruct ex; [destruct P1 as (r & w & -> & P1); apply pipe_effect in P1; destruct P1 as (_ & A & B & _ & T); auto|destruct P1 as (-> & ->); auto]. }
  destruct A as (A & FT). unfold piped in P2. destruct (o_out o).
  - destruct P2 as (r & w & -> & P2). apply pipe_effect in P2. destruct P2 as (_ & FR & FW & _ & T).
    assert (FN : n = r \/ n = w -> table t n = None).
    { intro X. assert (Y : table t1 n = None) by (destruct X as [-> | ->]; assumption). rewrite A in Y. destruct tok as [[a b]|]; [|exact Y]. destruct (n =? a)%nat; [discriminate|]. destruct (n =? b)%nat; [discriminate|exact Y]. }
    destruct tok as [[a b]|]; cbn [set_fd table]; rewrite !T, ?A; destruct (Nat.eqb_spec n r) as [X|]; try (symmetry; apply FN; left; exact X); destruct (Nat.eqb_spec n w) as [X|]; try (symmetry; apply FN; right; exact X); try reflexivity;
      destruct (Nat.eqb_spec n b) as [Xb|]; try (rewrite Xb; symmetry; apply FT); destruct (Nat.eqb_spec n a) as [Xa|]; try (rewrite Xa; symmetry; apply FT); reflexivity.
  - destruct P2 as (-> & ->). destruct tok as [[a b]|]; cbn [set_fd table]; rewrite ?A; [|reflexivity].
    destruct (Nat.eqb_spec n b) as [Xb|]; try (rewrite Xb; symmetry; apply FT); destruct (Nat.eqb_spec n a) as [Xa|]; try (rewrite Xa; symmetry; apply FT); reflexivity.
Qed.
(** C97: the password goes to the program only with expose_authtok in authentication or a password change, its first 511 bytes at most; the copy is
    wiped in every case; and the item is set only to the answer of the user, when it was not set before. *)
Theorem exec_token : forall E s args t x, serve E s args t = Ok x ->
  r_buf x = [] /\ (forall p, r_item x = Some p -> x_item E 6 = (PAM_SUCCESS, None) /\ x_prompt E = (PAM_SUCCESS, Some p)) /\
  (forall b, r_sent x = Some b -> (s = SAuth \/ s = SPassword false) /\ (exists os rest ws, leading args os rest ws /\ In WExpose ws) /\
     exists p item, token E p item /\ r_item x = item /\ b = (if x_write E then firstn 511 p else [])).
Proof.
  intros E s args t x H. destruct (serve_kind E s args t) as [(type & K & Q)|(_ & Q)]; rewrite Q in H; [|injection H as <-; cbn; repeat split; discriminate].
  assert (TI : forall q p, token E q (Some p) -> x_item E 6 = (PAM_SUCCESS, None) /\ x_prompt E = (PAM_SUCCESS, Some p)). { intros q p X. inversion X; subst. auto. }
  apply call_cases in H. destruct H as [NC _ SN BF _ IT|o rest prog more ex tok out buf item t1 t2 c' P R U EX EB EN P1 P2 C RC' _ SN BF IT SG FD].
  - split; [exact BF|]. split; [intros p X; exact (TI _ _ (IT p X))|]. intros b X. congruence.
  - split; [exact BF|]. split.
    + intros p X. rewrite IT in X. destruct ex; [|destruct (EN eq_refl); congruence]. destruct (EB eq_refl) as (q & T & _). rewrite X in T. exact (TI _ _ T).
    + intros b X. rewrite SN in X. destruct ex; [|discriminate]. injection X as <-. destruct (proj1 EX eq_refl) as (OE & TY). split; [destruct K, TY as [Y|Y]; auto; discriminate|]. split.
      * pose proof (exec_options type args) as O. rewrite P in O. destruct O as (os & ws & L & _ & (_ & _ & _ & ME & _)). exists os, rest, ws. split; [exact L|]. apply ME, OE.
      * destruct (EB eq_refl) as (p & T & ->). exists p, item. auto.
Qed.
(** C97: every call ends and reads no memory it may not read, except that the child reads a null pointer when the PAM environment cannot be listed. *)
Theorem exec_defined : forall E s args t, exists x, serve E s args t = Ok x /\ (r_child x = Some Crashes -> x_envlist E = None).
Proof.
  intros E s args t. destruct (serve_kind E s args t) as [(type & K & ->)|(_ & ->)]; [|eexists; split; [reflexivity|discriminate]]. clear K s.
  assert (TE : forall p t, exists m, take_end E p t = Ok m). { intros [[a b]|] t0; [|eexists; reflexivity]. cbn [take_end]. destruct (move_fuel 4 E a t0) as (m & ->); [pose proof (free3_le t0); lia|]. eexists; reflexivity. }
  assert (CH : forall o rest tok out t, exists c, child E type o rest tok out t = Ok c /\ (c = Crashes -> x_envlist E = None)).
  { intros o rest tok out t0. unfold child. cbv zeta. destruct (TE tok t0) as ([[r t1]|] & ->); cbn [bind]; [|eexists; split; [reflexivity|discriminate]]. destruct (TE out t1) as ([[w t2]|] & ->); cbn [bind]; [|eexists; split; [reflexivity|discriminate]].
    repeat (match goal with
      | |- context [let '(_, _) := ?e in _] => destruct e
      | |- context [if negb ?e then _ else _] => destruct e; cbn [negb]; try (eexists; split; [reflexivity|discriminate])
      | |- context [if ?e && _ then _ else _] => destruct e; cbn [andb]
      end); try (eexists; split; [reflexivity|discriminate]).
    all: destruct (x_envlist E); [|eexists; split; reflexivity]; repeat (match goal with |- context [if ?e then _ else _] => destruct e | |- context [match ?e with Some _ => _ | None => _ end] => destruct e end); eexists; split; try reflexivity; discriminate. }
  assert (RU : forall o rest tok out buf item t, exists x, run E type o rest tok out buf item t = Ok x /\ (r_child x = Some Crashes -> x_envlist E = None)).
  { intros o rest tok out buf item t0. unfold run. destruct rest; [eexists; split; [reflexivity|discriminate]|]. destruct (x_sigaction E); cbn [negb]; [|eexists; split; [reflexivity|discriminate]]. destruct (x_fork E); cbn [negb]; [|eexists; split; [reflexivity|discriminate]].
    match goal with |- context [child E type o ?r tok ?w t0] => destruct (CH o r tok w t0) as (c0 & -> & CC) end. cbn [bind]. repeat match goal with |- context [let '(_, _) := ?e in _] => destruct e end. eexists; split; [reflexivity|]. cbn [r_child]. intro X. injection X as X. exact (CC X). }
  unfold call_exec. destruct args as [|a0 as0]; [eexists; split; [reflexivity|discriminate]|]. destruct (parse type (a0 :: as0) _) as [[o rest]|]; [|eexists; split; [reflexivity|discriminate]].
  destruct (x_user E) as [ur un]. destruct (negb (ur =? PAM_SUCCESS)%Z); [eexists; split; [reflexivity|discriminate]|].
  repeat match goal with
    | |- context [run E type ?o ?r ?p ?q ?b ?i ?t] => apply RU
    | |- exists x, Ok _ = Ok x /\ _ => eexists; split; [reflexivity|discriminate]
    | |- exists x, (if ?e then _ else _) = _ /\ _ => destruct e
    | |- exists x, match ?e with _ => _ end = _ /\ _ => destruct e
    end.
Qed.
(** What the user is shown of a line: it up to its first newline or NUL. *)
Definition up_to_end (l m : cstr) : Prop := exists rest, l = (m ++ rest)%list /\ ~ In c_nl m /\ ~ In NUL m /\ match rest with [] => True | c :: _ => c = c_nl \/ c = NUL end.
Lemma shown_iff : forall l, up_to_end l (shown l).
Proof.
  assert (G : forall (p : ascii -> bool) s, exists rest, s = (fst (span p s) ++ rest)%list /\ (forall c, In c (fst (span p s)) -> p c = true) /\ match rest with [] => True | c :: _ => p c = false end).
  { intros p s. induction s as [|c s (rest & A & B & C)]; [exists []; repeat split; intros c []|]. cbn [span]. destruct (p c) eqn:P.
    - destruct (span p s) as [a b]. cbn [fst] in *. exists rest. cbn [app]. split; [congruence|]. split; [intros d [->|D]; auto|exact C].
    - exists (c :: s). split; [reflexivity|]. split; [intros d []|exact P]. }
  intro l. unfold shown. destruct (G (fun c => negb (Ascii.eqb c c_nl)) (cut l)) as (r1 & A & B & C). destruct (G (fun c => negb (Ascii.eqb c NUL)) l) as (r2 & A2 & B2 & C2).
  assert (CU : cut l = fst (span (fun c => negb (Ascii.eqb c NUL)) l)).
  { clear. induction l as [|c l IH]; [reflexivity|]. cbn [cut span]. destruct (Ascii.eqb c NUL); [reflexivity|]. cbn [negb]. rewrite IH. destruct (span _ l). reflexivity. }
  exists (r1 ++ r2)%list. split; [rewrite app_assoc, <- A, CU; exact A2|]. split; [intro X; apply B in X; rewrite Ascii.eqb_refl in X; discriminate|]. split.
  - intro X. assert (Y : In NUL (cut l)) by (rewrite A; apply in_or_app; left; exact X). rewrite CU in Y. apply B2 in Y. rewrite Ascii.eqb_refl in Y. discriminate.
  - destruct r1 as [|c r1]; cbn [app]; [|left; apply negb_false_iff, Ascii.eqb_eq in C; exact C]. destruct r2 as [|c r2]; [exact I|]. right. apply negb_false_iff, Ascii.eqb_eq in C2. exact C2.
Qed.
(** C97: what the user is told: with the option stdout, each line of the output; then the failure of the program, unless quiet is asked for or the
    child could not be waited for. *)
Theorem exec_told : forall E s args t x, serve E s args t = Ok x -> r_said x <> [] ->
  exists os ws prog more ls fs, leading args os (prog :: more) ws /\ r_said x = (map Line ls ++ fs)%list /\
    (In WOut ws -> Forall2 up_to_end (Str_Model.lines_of (x_output E)) ls) /\ (~ In WOut ws -> ls = []) /\
    (fs = [] \/ exists how, fs = [Failed prog how] /\ how <> Exited 0 /\ ~ In WQuiet ws /\ r_rc x = PAM_SYSTEM_ERR) /\
    (r_rc x <> PAM_SUCCESS -> x_wait E = true -> ~ In WQuiet ws -> fs <> []).
Proof.
  intros E s args t x H NS. destruct (serve_kind E s args t) as [(type & K & Q)|(_ & Q)]; rewrite Q in H; [|injection H as <-; contradiction].
  apply call_cases in H. destruct H as [_ _ _ _ X _|o rest prog more ex tok out buf item t1 t2 c P R U EX EB EN P1 P2 C RC RR _ _ _ _ _]; [contradiction|].
  pose proof (exec_options type args) as O. rewrite P in O. destruct O as (os & ws & L & _ & (MO & _ & MQ & _)). subst rest. injection RR as RR SD.
  exists os, ws, prog, more, (match out with Some _ => map shown (Str_Model.lines_of (x_output E)) | None => [] end), (snd (finish E o prog c)).
  assert (OO : out <> None <-> In WOut ws). { rewrite <- MO. unfold piped in P2. destruct (o_out o); [destruct P2 as (r & w & -> & _)|destruct P2 as (-> & _)]; split; congruence. }
  split; [exact L|]. split; [rewrite SD; destruct out; [rewrite map_map|]; reflexivity|]. split; [|split; [|split]].
  - intro X. apply OO in X. destruct out; [|contradiction]. clear. induction (Str_Model.lines_of (x_output E)); constructor; [apply shown_iff|assumption].
  - intro X. destruct out; [exfalso; apply X, OO; discriminate|reflexivity].
  - rewrite RR. unfold finish. destruct (x_wait E); cbn [negb snd]; [|auto]. destruct (o_quiet o) eqn:OQ.
    + left. destruct (status_of E c) as [[|p|p]|? ?|?]; reflexivity.
    + assert (NQ : ~ In WQuiet ws) by (intro X; apply MQ in X; congruence).
      destruct (status_of E c) as [[|p|p]|g k|w] eqn:S; [left; reflexivity|right; eexists; cbn [fst snd]; split; [reflexivity|]; split; [discriminate|]; auto..].
  - rewrite RR. unfold finish. intros X W NQ. rewrite W in *. cbn [negb snd fst] in *. destruct (o_quiet o) eqn:OQ; [exfalso; apply NQ, MQ; reflexivity|].
    destruct (status_of E c) as [[|p|p]|g k|w]; cbn [fst snd] in *; congruence.
Qed.

(** ** Examples and findings *)
Definition every (_ : nat) := true.
Definition ex_items (i : Z) : Z * option cstr :=
  if (i =? 1)%Z then (PAM_SUCCESS, Some (lit "sshd")) else if (i =? 2)%Z then (PAM_SUCCESS, Some (lit "ann")) else if (i =? 6)%Z then (PAM_SUCCESS, Some (lit "secret")) else (PAM_SUCCESS, None).
Definition ex_env (fork : bool) (envl : option (list cstr)) : env :=
  mkEnv (PAM_SUCCESS, lit "ann") ex_items (PAM_SUCCESS, None) 1024 (fun _ => true) true true fork true true (lit "hello" ++ [c_nl] ++ lit "bye")%list (Exited 0) every every true 77 all_works true None
    true true true envl true (fun _ => true) true 2 1000 0 true.
Definition four : fds := mkFds (fun n => if (n <? 4)%nat then Some (Before n) else None) 0.
Definition bare : fds := mkFds (fun _ => None) 0.
Definition ex_args := [lit "EXPOSE_authtok"; lit "stdout"; lit "/bin/x"; lit "quiet"].
Lemma four_not_yet : not_yet four. Proof. intros n i. cbn [four table]. destruct (n <? 4)%nat; intros [X|X]; discriminate. Qed.
(** Authentication with the password handed over and the output shown: with descriptors 0 to 3 open, and with none. *)
Example exec_example :
  (exists x im, serve (ex_env true (Some [lit "A=b"])) SAuth ex_args four = Ok x /\ r_child x = Some (Ran im) /\ r_rc x = PAM_SUCCESS /\ im_path im = lit "/bin/x" /\ im_argv im = [lit "/bin/x"; lit "quiet"] /\
     im_env im = [lit "A=b"; lit "PAM_SERVICE=sshd"; lit "PAM_USER=ann"; lit "PAM_TYPE=auth"] /\ (im_ruid im, im_euid im) = (1000, 0)%Z /\ r_sent x = Some (lit "secret") /\ r_said x = [Line (lit "hello"); Line (lit "bye")] /\
     map (table (im_fds im)) (seq 0 8) = [Some (PipeRead 0); Some (PipeWrite 1); Some (PipeWrite 1); None; None; None; None; None] /\ map (table (r_fds x)) (seq 0 8) = map (table four) (seq 0 8)) /\
  (exists x im, serve (ex_env true (Some [lit "A=b"])) SAuth ex_args bare = Ok x /\ r_child x = Some (Ran im) /\
     map (table (im_fds im)) (seq 0 8) = [Some (PipeRead 0); Some (PipeWrite 1); Some (PipeWrite 1); None; None; None; None; None] /\ map (table (r_fds x)) (seq 0 8) = map (table bare) (seq 0 8)) /\
  (exists x im, serve (ex_env true (Some [])) SOpen [lit "log=/l"; lit "seteuid"; lit "/bin/y"] bare = Ok x /\ r_child x = Some (Ran im) /\ r_sent x = None /\ im_ruid im = 0%Z /\
     map (table (im_fds im)) (seq 0 5) = [Some (PipeRead 0); Some (Before 77); Some (Before 77); None; None]) /\
  (exists x, serve (ex_env true (Some [])) SOpen [lit "type=auth"; lit "/bin/y"] four = Ok x /\ r_child x = None /\ r_rc x = PAM_IGNORE).
Proof.
  split; [eexists; eexists; split; [vm_compute; reflexivity|repeat split; vm_compute; reflexivity]|]. split; [eexists; eexists; split; [vm_compute; reflexivity|repeat split; vm_compute; reflexivity]|].
  split; [eexists; eexists; split; [vm_compute; reflexivity|repeat split; vm_compute; reflexivity]|]. eexists; split; [vm_compute; reflexivity|split; vm_compute; reflexivity].
Qed.
(** A program that fails, told to the user. *)
Example exec_told_example : exists x, serve (let E := ex_env true (Some []) in mkEnv (x_user E) (x_item E) (x_prompt E) 1024 (x_pipe E) true true true true true (lit "hm") (Exited 3) every every true 77 all_works true None true true true (x_envlist E) true (x_asprintf E) true 2 1000 0 true)
  SAccount [lit "stdout"; lit "/bin/x"] four = Ok x /\ r_rc x = PAM_SYSTEM_ERR /\ r_said x = [Line (lit "hm"); Failed (lit "/bin/x") (Exited 3)].
Proof. eexists. split; [vm_compute; reflexivity|]. split; vm_compute; reflexivity. Qed.

(** The first variable of a name, which is what getenv(3) finds. *)
Definition finds (name : cstr) (env : list cstr) (v : cstr) : Prop := exists a b, env = (a ++ (name ++ lit "=" ++ v) :: b)%list /\ forall e w, In e a -> e <> (name ++ lit "=" ++ w)%list.
(** The claim that the program finds the user of the session in PAM_USER is false: a variable of that name in the PAM environment, which other
    modules set from what a user may write, comes first. *)
Theorem exec_user_refuted : exists E args t x im, not_yet t /\ serve E SAuth args t = Ok x /\ r_child x = Some (Ran im) /\ x_item E 2 = (PAM_SUCCESS, Some (lit "ann")) /\ finds (lit "PAM_USER") (im_env im) (lit "root").
Proof.
  exists (ex_env true (Some [lit "PAM_USER=root"])), ex_args, four. eexists. eexists. split; [exact four_not_yet|]. split; [vm_compute; reflexivity|]. split; [reflexivity|]. split; [reflexivity|].
  exists []. eexists. split; [reflexivity|intros e w []].
Qed.
(** The claim that the caller keeps its descriptors and its handler of SIGCHLD whatever happens is false: when fork fails, or when no program is named,
    the pipes stay open, and in the former case SIGCHLD keeps its default handling. *)
Theorem exec_leak_refuted : (exists E args t x, serve E SAuth args t = Ok x /\ r_rc x = PAM_SYSTEM_ERR /\ (exists n, table t n = None /\ table (r_fds x) n <> None) /\ r_sig x = false) /\
  (exists E args t x, serve E SAuth args t = Ok x /\ x_fork E = true /\ r_rc x = PAM_SERVICE_ERR /\ exists n, table t n = None /\ table (r_fds x) n <> None).
Proof.
  split.
  - exists (ex_env false (Some [])), ex_args, four. eexists. split; [vm_compute; reflexivity|]. split; [reflexivity|]. split; [exists 5%nat; split; [reflexivity|discriminate]|reflexivity].
  - exists (ex_env true (Some [])), [lit "stdout"], four. eexists. split; [vm_compute; reflexivity|]. split; [reflexivity|]. split; [reflexivity|]. exists 5%nat. split; [reflexivity|discriminate].
Qed.
(** The claim that the child never reads through a null pointer is false, and that the program gets the whole password too. *)
Theorem exec_crash_refuted : exists E args t x, serve E SAuth args t = Ok x /\ r_child x = Some Crashes /\ r_rc x = PAM_SYSTEM_ERR.
Proof. exists (ex_env true None), ex_args, four. eexists. split; [vm_compute; reflexivity|]. split; reflexivity. Qed.
Theorem exec_whole_token_refuted : exists E args t x p b, serve E SAuth args t = Ok x /\ x_item E 6 = (PAM_SUCCESS, Some p) /\ r_rc x = PAM_SUCCESS /\ r_sent x = Some b /\ (length b < length p)%nat.
Proof.
  exists (let E := ex_env true (Some []) in mkEnv (x_user E) (fun i => if (i =? 6)%Z then (PAM_SUCCESS, Some (repeat "a"%char 600)) else x_item E i) (x_prompt E) 1024 (x_pipe E) true true true true true [] (Exited 0) every every true 77 all_works true None true true true (x_envlist E) true (x_asprintf E) true 2 1000 0 true).
  exists ex_args, four. eexists. exists (repeat "a"%char 600), (repeat "a"%char 511). split; [vm_compute; reflexivity|]. split; [reflexivity|]. split; [reflexivity|]. split; [vm_compute; reflexivity|]. rewrite !repeat_length. lia.
Qed.

Print Assumptions exec_options.
Print Assumptions exec_success.
Print Assumptions exec_program.
Print Assumptions exec_descriptors.
Print Assumptions exec_parent.
Print Assumptions exec_token.
Print Assumptions exec_defined.
Print Assumptions exec_told.
Print Assumptions exec_user_refuted.
Print Assumptions exec_leak_refuted.
Print Assumptions exec_crash_refuted.
Print Assumptions exec_whole_token_refuted.
