(** C115: pam_filter. *)
From Coq Require Import String Ascii List Arith ZArith Lia Bool.
From Verif Require Import Base Str_Model Filter_Model.
Import ListNotations.
Local Open Scope Z_scope.

(** * Specification *)

Definition is_run (a : cstr) : Prop := a = lit "run1" \/ a = lit "run2".
(** Arguments with spaces between them. *)
Fixpoint joined (l : list cstr) : cstr :=
  match l with [] => [] | [a] => a | a :: t => (a ++ " "%char :: joined t)%list end.
(** The arguments name a filter: options, when to run it, and the filter with its arguments. *)
Definition Names (args before : list cstr) (run : cstr) (argv : list cstr) : Prop :=
  args = (before ++ run :: argv)%list /\ argv <> [] /\ is_run run /\ forall a, In a before -> ~ is_run a.
Definition Options (c : ctrl) (before : list cstr) : Prop :=
  (c_debug c = true <-> In (lit "debug") before) /\ (c_new c = true <-> In (lit "new_term") before) /\ (c_non c = true <-> In (lit "non_term") before).
(** Whether the user's terminal is in raw mode after effects. *)
Definition raw_after (l : list eff) : bool := fold_left (fun m e => match e with Raw => true | Restored => false | _ => m end) l false.
(** When the calls run a filter. *)
Definition Applies (f : call) (run : cstr) : Prop :=
  match f with
  | Authenticate | Open | Chauthtok true _ => run = lit "run1"
  | Setcred | Close | Chauthtok false true => run = lit "run2"
  | Account => True
  | Chauthtok false false => False
  end.
Definition ended (s : what) : Prop := s <> Stopped.
Definition status_of (s : what) : Z := match s with Exited c => c | _ => -1 end.
Definition stops (who1 : who -> Prop) (ws : list (who * what)) : Prop := Forall (fun w => who1 (fst w) /\ snd w = Stopped) ws.
Definition either (w : who) : Prop := w <> Other.

(** * Facts *)

Lemma text_joined : forall argv, args_text 0 argv = joined argv.
Proof.
  assert (H : forall argv i, args_text (S i) argv = match argv with [] => [] | _ => (" "%char :: joined argv)%list end).
  { induction argv as [|a t IH]; intros i; [reflexivity|]. cbn [args_text app]. rewrite IH. destruct t; cbn [joined]; [now rewrite app_nil_r | reflexivity]. }
  intros [|a t]; [reflexivity|]. cbn [args_text app]. rewrite H. destruct t; cbn [joined]; [now rewrite app_nil_r | reflexivity].
Qed.
Ltac opts := repeat match goal with |- _ /\ _ => split end; cbn [In]; match goal with H : c_debug _ = true <-> _ |- _ => idtac end; intuition (try discriminate; try congruence; auto).
Lemma options_run : forall before run argv c, (forall a, In a before -> ~ is_run a) -> is_run run ->
  exists c', options (before ++ run :: argv) c = (c', argv) /\
    (c_debug c' = true <-> c_debug c = true \/ In (lit "debug") before) /\ (c_new c' = true <-> c_new c = true \/ In (lit "new_term") before) /\ (c_non c' = true <-> c_non c = true \/ In (lit "non_term") before) /\
    (c_run1 c' = true <-> c_run1 c = true \/ run = lit "run1") /\ (c_run2 c' = true <-> c_run2 c = true \/ run = lit "run2").
Proof.
  induction before as [|a before IH]; intros run argv c N R.
  - cbn [app]. destruct R as [-> | ->]; eexists; (split; [vm_compute; reflexivity|]); cbn [In c_debug c_new c_non c_run1 c_run2]; repeat split; try tauto; intuition (try discriminate; auto).
  - assert (N1 : ~ is_run a) by (apply N; now left). assert (N2 : forall x, In x before -> ~ is_run x) by (intros x Hx; apply N; now right). cbn [app options].
    destruct (streq (lit "debug") a) eqn:Q1; [apply streq_eq in Q1; subst a | apply streq_neq in Q1].
    { edestruct (IH run argv) as (c' & -> & H); [exact N2 | exact R|]. exists c'. split; [reflexivity|]. cbn [c_debug c_new c_non c_run1 c_run2] in H. destruct H as (H1 & H2 & H3 & H4 & H5).
      opts. }
    destruct (streq (lit "new_term") a) eqn:Q2; [apply streq_eq in Q2; subst a | apply streq_neq in Q2].
    { edestruct (IH run argv) as (c' & -> & H); [exact N2 | exact R|]. exists c'. split; [reflexivity|]. cbn [c_debug c_new c_non c_run1 c_run2] in H. destruct H as (H1 & H2 & H3 & H4 & H5).
      opts. }
    destruct (streq (lit "non_term") a) eqn:Q3; [apply streq_eq in Q3; subst a | apply streq_neq in Q3].
    { edestruct (IH run argv) as (c' & -> & H); [exact N2 | exact R|]. exists c'. split; [reflexivity|]. cbn [c_debug c_new c_non c_run1 c_run2] in H. destruct H as (H1 & H2 & H3 & H4 & H5).
      opts. }
    destruct (streq (lit "run1") a) eqn:Q4; [apply streq_eq in Q4; exfalso; apply N1; left; now symmetry|].
    destruct (streq (lit "run2") a) eqn:Q5; [apply streq_eq in Q5; exfalso; apply N1; right; now symmetry|].
    edestruct (IH run argv c) as (c' & -> & H); [exact N2 | exact R|]. exists c'. split; [reflexivity|]. destruct H as (H1 & H2 & H3 & H4 & H5).
    opts.
Qed.
(** Either a filter is named, or none is run and the rest is empty. *)
Lemma options_none : forall args c, (forall before run argv, ~ Names args before run argv) -> snd (options args c) = [].
Proof.
  induction args as [|a args IH]; intros c N; [reflexivity|]. cbn [options].
  assert (Next : forall c, ~ is_run a -> snd (options args c) = []).
  { intros c1 Ha. apply IH. intros before run argv (-> & H1 & H2 & H3). apply (N (a :: before) run argv). split; [reflexivity|]. split; [exact H1|]. split; [exact H2|]. intros x [<- | Hx]; [exact Ha | now apply H3]. }
  assert (Last : is_run a -> args = []).
  { intros Ha. destruct args as [|b t]; [reflexivity|]. exfalso. apply (N [] a (b :: t)). split; [reflexivity|]. split; [discriminate|]. split; [exact Ha | intros x []]. }
  destruct (streq (lit "debug") a) eqn:Q1; [apply streq_eq in Q1; subst a; apply Next; intros [H | H]; discriminate|].
  destruct (streq (lit "new_term") a) eqn:Q2; [apply streq_eq in Q2; subst a; apply Next; intros [H | H]; discriminate|].
  destruct (streq (lit "non_term") a) eqn:Q3; [apply streq_eq in Q3; subst a; apply Next; intros [H | H]; discriminate|].
  destruct (streq (lit "run1") a) eqn:Q4; [apply streq_eq in Q4; apply Last; left; now symmetry|].
  destruct (streq (lit "run2") a) eqn:Q5; [apply streq_eq in Q5; apply Last; right; now symmetry|].
  apply Next. apply streq_neq in Q4. apply streq_neq in Q5. intros [H | H]; congruence.
Qed.

(** * Theorems *)

(** C115: the arguments: the filter is what follows the first run1 or run2, options are before it, and the environment of the filter has four variables. *)
Theorem filter_arguments : forall E args before run argv type service, Names args before run argv -> e_service E = Some service -> (forall i, e_mem E i = true) ->
  exists c name, hd_error argv = Some name /\ Options c before /\ (c_run1 c = true <-> run = lit "run1") /\ (c_run2 c = true <-> run = lit "run2") /\
  process_args E args type = Some (c, Some name, [(lit "ARGS=" ++ joined argv)%list; (lit "SERVICE=" ++ service)%list; (lit "USER=" ++ match e_user E with Some u => u | None => lit "<unknown>" end)%list; (lit "TYPE=" ++ type)%list]).
Proof.
  intros E args before run argv type service (-> & H1 & H2 & H3) S M. destruct (options_run before run argv no_ctrl H3 H2) as (c & O & O1 & O2 & O3 & O4 & O5). cbn [no_ctrl c_debug c_new c_non c_run1 c_run2] in *.
  destruct argv as [|name rest]; [congruence|]. exists c, name. split; [reflexivity|]. split; [unfold Options; intuition discriminate|]. split; [intuition discriminate|]. split; [intuition discriminate|].
  unfold process_args. rewrite O, !M, S. cbn [negb]. rewrite text_joined. reflexivity.
Qed.
(** C115: the variable with the arguments fits exactly into the memory for it. *)
Theorem filter_args_fit : forall argv, S (length (lit "ARGS=" ++ joined argv)%list) = (6 + args_size 0 argv)%nat.
Proof.
  intros argv. rewrite <- text_joined, app_length. change (length (lit "ARGS=")) with 5%nat.
  assert (H : forall l i, length (args_text i l) = args_size i l).
  { induction l as [|a t IH]; intros i; [reflexivity|]. cbn [args_text args_size]. rewrite !app_length, IH. destruct i; cbn [length]; lia. }
  rewrite H. lia.
Qed.
Definition modes (m : bool) (l : list eff) : bool := fold_left (fun m e => match e with Raw => true | Restored => false | _ => m end) l m.
Lemma quit_modes : forall t st m, (t = false -> m = false) -> modes m (quit t st) = false.
Proof. intros [|] st m H; [reflexivity | exact (H eq_refl)]. Qed.
Lemma wait2_modes : forall t ws a f st m s, (t = false -> m = false) -> In (Quit s) (wait2 t a f st ws) -> modes m (wait2 t a f st ws) = false.
Proof.
  intros t ws. induction ws as [|[w x] ws IH]; intros a f st m s Hm; cbn [wait2].
  - destruct (a || f); [intros [] | intros _; now apply quit_modes].
  - destruct (a || f); [|intros _; now apply quit_modes]. intros [H | H]; [discriminate|]. unfold modes in *. cbn [fold_left].
    destruct w; [destruct a; [destruct x; eapply IH; eauto | now apply quit_modes] | destruct f; [destruct x; eapply IH; eauto | now apply quit_modes] | now apply quit_modes].
Qed.
Lemma wait1_modes : forall t ws m s, (t = false -> m = false) -> In (Quit s) (wait1 t ws) -> modes m (wait1 t ws) = false.
Proof.
  intros t ws. induction ws as [|[w x] ws IH]; intros m s Hm; cbn [wait1]; [intros []|]. intros [H | H]; [discriminate|]. unfold modes in *. cbn [fold_left].
  destruct w, x; try (eapply IH; eauto; fail); (destruct H as [H | H]; [discriminate|]); cbn [fold_left]; eapply wait2_modes; eauto.
Qed.
Lemma child_modes : forall E (t : bool), Forall (fun e : eff => match e with SlaveMode | Redirected _ => True | _ => False end) (snd (child E t)).
Proof.
  intros E t. unfold child. cbv zeta.
  destruct t; [destruct (e_setsid E), (e_grant E), (e_unlock E), (e_ptsname E), (e_slave E), (e_mode E); cbn [negb snd]; auto|];
    (destruct (e_dup E 0); cbn [negb snd app]; [|repeat constructor]); (destruct (e_dup E 1); cbn [negb snd app]; [|repeat constructor]); (destruct (e_dup E 2); cbn [negb snd app]; repeat constructor).
Qed.
(** A call that forks. *)
Definition of_call (f : call) : option (cstr * (bool * bool)) :=
  match f with
  | Authenticate => Some (lit "authenticate", (true, false)) | Setcred => Some (lit "setcred", (false, true)) | Account => Some (lit "setcred", (true, true))
  | Open => Some (lit "open_session", (true, false)) | Close => Some (lit "close_session", (false, true))
  | Chauthtok true _ => Some (lit "chauthtok", (true, false)) | Chauthtok false true => Some (lit "chauthtok", (false, true)) | Chauthtok false false => None
  end.
Lemma pam_sm_eq : forall E f args tty, pam_sm E f args tty = match of_call f with Some (type, run) => need_a_filter E args type run tty | None => mkR 24 tty [] [] None end.
Proof. intros E [| | | | |[|] [|]] args tty; reflexivity. Qed.
Lemma need_cases : forall E args type run tty,
  (exists code tty', need_a_filter E args type run tty = mkR code tty' [] [] None) \/
  (exists c name vars, process_args E args type = Some (c, name, vars) /\ ((c_run1 c = true /\ fst run = true) \/ (c_run2 c = true /\ snd run = true)) /\
    ((exists r fx code tty', set_filter E name vars = One r fx /\ need_a_filter E args type run tty = mkR code tty' fx [] None) \/
     (exists r fx ch pa code tty', set_filter E name vars = Two r fx ch pa /\ need_a_filter E args type run tty = mkR code tty' fx ch (Some pa) /\ (code = 0 -> r = 0) /\ (r <> 0 -> code = r)))).
Proof.
  intros E args type run tty. unfold need_a_filter. destruct (process_args E args type) as [[[c name] vars]|]; [|left; eauto].
  destruct (if negb (c_non c) && negb (c_new c) then set_the_terminal E (e_ttyname E) tty else (0, tty)) as [r0 tty0]. cbv zeta.
  destruct (Z.eqb_spec r0 0) as [->|N]; cbn [andb].
  2: { left. destruct (Z.eqb_spec r0 0); [contradiction|]. cbn [andb]. eauto. }
  destruct (c_run1 c && fst run || c_run2 c && snd run) eqn:R.
  2: { left. match goal with |- context [let (_, _) := ?x in _] => destruct x as [r1 tty1] end. eauto. }
  right. exists c, name, vars. split; [reflexivity|]. split.
  { apply orb_true_iff in R. destruct R as [R | R]; apply andb_true_iff in R; auto. }
  destruct (set_filter E name vars) as [r fx | r fx ch pa] eqn:S.
  - left. match goal with |- context [let (_, _) := ?x in _] => destruct x as [r1 tty1] end. exists r, fx, r1, tty1. auto.
  - right. destruct (Z.eqb_spec r 0) as [->|D]; cbn [andb].
    + match goal with |- context [let (_, _) := ?x in _] => destruct x as [r1 tty1] end. exists 0, fx, ch, pa, r1, tty1. repeat split; auto. congruence.
    + exists r, fx, ch, pa, r, tty0. auto.
Qed.
Lemma set_filter_cases : forall E name vars, match set_filter E name vars with
  | One r fx => r <> 0 /\ (fx = [] \/ fx = [Raw; Restored])
  | Two r fx ch pa => exists c n, name = Some (c :: n) /\ c = c_slash /\ let t := e_tty0 E && e_tty1 E in (r, ch) = child E t /\ pa = parent E t (c :: n) vars /\ fx = (if t then [Raw] else [])
  end.
Proof.
  intros E name vars. unfold set_filter. destruct name as [[|c n]|]; [split; [discriminate | auto] | | split; [discriminate | auto]].
  destruct (Ascii.eqb_spec c c_slash) as [->|D]; cbn [negb]; [|split; [discriminate | auto]].
  destruct (e_tty0 E && e_tty1 E) eqn:T.
  - destruct (e_master E), (e_getattr E), (e_raw E), (e_fork E); cbn [negb]; try (split; [discriminate | auto; fail]).
    destruct (child E true) as [r ch] eqn:C. exists c_slash, n. auto.
  - destruct (e_socket E), (e_fork E); cbn [negb]; try (split; [discriminate | auto; fail]). destruct (child E false) as [r ch] eqn:C. exists c_slash, n. auto.
Qed.
(** C115: the user's terminal has its mode back whenever a call returns in the one process or the first of two ends, whatever fails; the application's process never touches it. *)
Theorem filter_restored : forall E f args tty, let r := pam_sm E f args tty in
  (r_parent r = None -> raw_after (r_before r) = false) /\
  (forall p s, r_parent r = Some p -> In (Quit s) p -> raw_after (r_before r ++ p) = false) /\
  ~ In Raw (r_child r) /\ ~ In Restored (r_child r).
Proof.
  intros E f args tty. rewrite pam_sm_eq. destruct (of_call f) as [[type run]|]; [|cbn; repeat split; auto; discriminate]. cbv zeta.
  destruct (need_cases E args type run tty) as [(code & tty' & ->) | (c & name & vars & _ & _ & [(r & fx & code & tty' & S & ->) | (r & fx & ch & pa & code & tty' & S & -> & _)])]; cbn [r_parent r_before r_child];
    [repeat split; auto; discriminate | |].
  - pose proof (set_filter_cases E name vars) as X. rewrite S in X. destruct X as (_ & [-> | ->]); repeat split; auto; discriminate.
  - pose proof (set_filter_cases E name vars) as X. rewrite S in X. destruct X as (c0 & n & _ & _ & C & -> & ->). split; [discriminate|]. split.
    + intros p s Hp Hq. injection Hp as <-. unfold raw_after. rewrite fold_left_app. set (t := e_tty0 E && e_tty1 E) in *.
      assert (M : t = false -> fold_left (fun m e => match e with Raw => true | Restored => false | _ => m end) (if t then [Raw] else []) false = false) by (intros ->; reflexivity).
      revert Hq. unfold parent. intros [H | Hq]; [discriminate|]. cbn [fold_left]. destruct (e_fork2 E).
      * destruct Hq as [H | Hq]; [unfold filter in H; match type of H with context [if ?b then Ran _ _ else _] => destruct b end; discriminate|]. cbn [fold_left]. unfold filter. match goal with |- context [if ?b then Ran _ _ else _] => destruct b end; exact (wait1_modes t (e_waits E) _ s M Hq).
      * destruct Hq as [H | Hq]; [discriminate|]. cbn [fold_left]. exact (wait2_modes t (e_waits E) _ _ _ _ s M Hq).
    + pose proof (child_modes E (e_tty0 E && e_tty1 E)) as F. rewrite <- C in F. cbn [snd] in F. rewrite Forall_forall in F. split; intros H; exact (F _ H).
Qed.
Lemma names_dec : forall args, (exists before run argv, Names args before run argv) \/ (forall before run argv, ~ Names args before run argv).
Proof.
  intros args. induction args as [|a args IH]; [right; intros [|? ?] run argv (H & _); discriminate|].
  destruct (streq a (lit "run1") || streq a (lit "run2")) eqn:R.
  - apply orb_true_iff in R. assert (Ha : is_run a) by (destruct R as [R | R]; apply streq_eq in R; [left | right]; exact R).
    destruct args as [|b t].
    + right. intros [|x [|y before]] run argv (H & H1 & H2 & H3); cbn in H; injection H as H4 H5; try discriminate. subst. congruence.
    + left. exists [], a, (b :: t). split; [reflexivity|]. split; [discriminate|]. split; [exact Ha | intros x []].
  - apply orb_false_iff in R. destruct R as (R1 & R2). apply streq_neq in R1. apply streq_neq in R2. assert (Ha : ~ is_run a) by (intros [H | H]; congruence).
    destruct IH as [(before & run & argv & -> & H1 & H2 & H3) | N].
    + left. exists (a :: before), run, argv. split; [reflexivity|]. split; [exact H1|]. split; [exact H2|]. intros x [<- | Hx]; [exact Ha | now apply H3].
    + right. intros [|b before] run argv (H & H1 & H2 & H3); cbn in H; injection H as H4 H5; [subst; contradiction|]. apply (N before run argv). split; [exact H5|]. split; [exact H1|]. split; [exact H2|].
      intros x Hx. apply H3. now right.
Qed.
(** C115: a process with a filter: only for calls to which run1 or run2 applies, with the filter named by a full path; and success means that the three standard descriptors
    of the application lead to the filter, through a terminal with the user's mode if the user has one. *)
Theorem filter_success : forall E f args tty p, let r := pam_sm E f args tty in r_parent r = Some p ->
  (exists before run name rest, Names args before run ((c_slash :: name) :: rest) /\ Applies f run) /\
  (r_code r = 0 -> r_child r = ((if e_tty0 E && e_tty1 E then [SlaveMode] else []) ++ [Redirected 0; Redirected 1; Redirected 2])%list).
Proof.
  intros E f args tty p. cbv zeta. rewrite pam_sm_eq. destruct (of_call f) as [[type run]|] eqn:O; [|discriminate].
  destruct (need_cases E args type run tty) as [(code & tty' & ->) | (c & name & vars & P & Rn & [(r & fx & code & tty' & S & ->) | (r & fx & ch & pa & code & tty' & S & -> & Z0 & _)])]; cbn [r_parent r_before r_child r_code];
    [discriminate | discriminate|].
  intros H. injection H as ->. pose proof (set_filter_cases E name vars) as X. rewrite S in X. destruct X as (c0 & n & -> & -> & C & _ & _). cbv zeta in C. split.
  - unfold process_args in P. destruct (options args no_ctrl) as [c1 argv] eqn:Q.
    assert (Y : exists before run1 argv', Names args before run1 argv').
    { clear - Q P. destruct argv as [|x argv]; [discriminate|].
      destruct (names_dec args) as [W1 | W1]; [exact W1|]. pose proof (options_none args no_ctrl W1) as W2. rewrite Q in W2. discriminate. }
    destruct Y as (before & run1 & argv' & -> & H1 & H2 & H3). destruct (options_run before run1 argv' no_ctrl H3 H2) as (c2 & O2 & _ & _ & _ & O4 & O5). rewrite O2 in Q. injection Q as <- <-.
    destruct argv' as [|nm rest]; [congruence|].
    assert (E1 : c = c2 /\ nm = c_slash :: n).
    { destruct (e_mem E 0), (e_mem E 1); cbn [negb] in P; try discriminate. destruct (e_service E); [|discriminate]. destruct (e_mem E 2), (e_mem E 3), (e_mem E 4); cbn [negb] in P; try discriminate. injection P as -> -> _. auto. }
    destruct E1 as (-> & ->). exists before, run1, n, rest. split; [split; [reflexivity|]; split; [discriminate|]; split; assumption|].
    cbn [no_ctrl c_run1 c_run2] in O4, O5.
    destruct f as [| | | | |[|] [|]]; cbn [of_call] in O; (discriminate O || injection O as <- <-); cbn [fst snd Applies] in *; destruct Rn as [(R1 & R2) | (R1 & R2)]; try discriminate; try exact Coq.Init.Logic.I;
      [apply O4 in R1 | apply O5 in R1 | apply O4 in R1 | apply O5 in R1 | apply O4 in R1 | apply O4 in R1 | apply O5 in R1]; destruct R1 as [R1 | R1]; try discriminate; exact R1.
  - intros ->. specialize (Z0 eq_refl). subst r. revert C. unfold child. cbv zeta.
    destruct (e_tty0 E && e_tty1 E); [destruct (e_setsid E), (e_grant E), (e_unlock E), (e_ptsname E), (e_slave E), (e_mode E); cbn [negb]; intros C; try (injection C; discriminate)|intros C];
      revert C; destruct (e_dup E 0), (e_dup E 1), (e_dup E 2); cbn [negb]; intros C; try (injection C; discriminate); injection C as _ ->; reflexivity.
Qed.
(** C115: success without a filter: only if no filter named by the options applies to the call; nothing is done then. *)
Theorem filter_none : forall E f args tty, let r := pam_sm E f args tty in r_parent r = None ->
  (r_code r = 0 -> r_before r = [] /\ r_child r = [] /\ f <> Chauthtok false false /\ forall before run argv, Names args before run argv -> ~ Applies f run) /\
  (r_code r <> 0 -> r_code r = 26 \/ r_code r = 7 \/ r_code r = 9 \/ (r_code r = 24 /\ f = Chauthtok false false)).
Proof.
  intros E f args tty. cbv zeta. rewrite pam_sm_eq. destruct (of_call f) as [[type run]|] eqn:O.
  2: { cbn. intros _. split; [discriminate|]. intros _. right. right. right. split; [reflexivity|]. destruct f as [| | | | |[|] [|]]; (discriminate O || reflexivity). }
  assert (F : f <> Chauthtok false false) by (intros ->; discriminate O).
  assert (ST : forall n t, fst (set_the_terminal E n t) = 0 \/ fst (set_the_terminal E n t) = 26) by (intros n [t|]; cbn; auto; destruct n; auto; destruct (e_settty E); auto).
  unfold need_a_filter. destruct (process_args E args type) as [[[c name] vars]|] eqn:P.
  2: { cbn. intros _. split; [discriminate | auto]. }
  cbv zeta. destruct (if negb (c_non c) && negb (c_new c) then _ else _) as [r1 tty1] eqn:T.
  assert (R1 : r1 = 0 \/ r1 = 26).
  { destruct (negb (c_non c) && negb (c_new c)); [|injection T as <- _; auto]. pose proof (ST (e_ttyname E) tty) as X. rewrite T in X. exact X. }
  destruct ((r1 =? 0) && (c_run1 c && fst run || c_run2 c && snd run)) eqn:R.
  - pose proof (set_filter_cases E name vars) as X. destruct (set_filter E name vars) as [r0 fx|r0 fx ch pa] eqn:Sf.
    + destruct X as (X & _). apply Z.eqb_neq in X. rewrite X. cbn [andb r_parent r_code]. intros _. split; [intros ->; discriminate|]. intros _.
      clear - Sf. unfold set_filter in Sf. destruct name as [[|x n]|]; [injection Sf as <- _; auto | | injection Sf as <- _; auto].
      destruct (negb (Ascii.eqb x c_slash)); [injection Sf as <- _; auto|]. destruct (e_tty0 E && e_tty1 E).
      * destruct (e_master E), (e_getattr E), (e_raw E), (e_fork E); cbn [negb] in Sf; try (injection Sf as <- _; auto). destruct (child E true); discriminate.
      * destruct (e_socket E), (e_fork E); cbn [negb] in Sf; try (injection Sf as <- _; auto). destruct (child E false); discriminate.
    + match goal with |- context [let (_, _) := ?x in _] => destruct x end. discriminate.
  - assert (L : forall l : Z * option cstr, l = (if (r1 =? 0) && negb (c_non c) && c_new c then set_the_terminal E (e_ttyname E) tty1 else (r1, tty1)) -> (fst l = 0 -> r1 = 0) /\ (fst l = 0 \/ fst l = 26)).
    { intros l ->. destruct R1 as [-> | ->]; cbn [Z.eqb andb]; [|cbn; split; [discriminate | auto]]. split; [auto|]. destruct (negb (c_non c) && c_new c); [apply ST | cbn; auto]. }
    match goal with |- context [let (_, _) := ?x in _] => specialize (L x eq_refl); destruct x as [r2 tty2] end. cbn [fst r_parent r_code r_before r_child] in *. intros _.
    split; [|intros; intuition]. intros ->. destruct L as (L & _). rewrite (L eq_refl) in R. cbn [Z.eqb andb] in R. repeat split; [exact F|].
    intros before rn argv (-> & H1 & H2 & H3) A. destruct (options_run before rn argv no_ctrl H3 H2) as (c2 & O2 & _ & _ & _ & O4 & O5).
    unfold process_args in P. rewrite O2 in P. destruct argv as [|nm rest]; [congruence|].
    assert (c = c2).
    { destruct (e_mem E 0), (e_mem E 1); cbn [negb] in P; try discriminate. destruct (e_service E); [|discriminate]. destruct (e_mem E 2), (e_mem E 3), (e_mem E 4); cbn [negb] in P; try discriminate. now injection P. }
    subst c2. apply orb_false_iff in R. destruct R as (Ra & Rb).
    assert (X1 : rn = lit "run1" -> c_run1 c = true) by (intros X; apply O4; auto). assert (X2 : rn = lit "run2" -> c_run2 c = true) by (intros X; apply O5; auto).
    destruct f as [| | | | |[|] [|]]; cbn [of_call] in O; (discriminate O || injection O as <- <-); cbn [fst snd Applies] in *; rewrite ?andb_true_r, ?andb_false_r in *;
      [rewrite (X1 A) in Ra; discriminate | rewrite (X2 A) in Rb; discriminate | | rewrite (X1 A) in Ra; discriminate | rewrite (X2 A) in Rb; discriminate | rewrite (X1 A) in Ra; discriminate | rewrite (X1 A) in Ra; discriminate | rewrite (X2 A) in Rb; discriminate].
    destruct H2 as [H2 | H2]; [rewrite (X1 H2) in Ra | rewrite (X2 H2) in Rb]; discriminate.
Qed.
(** C115: when nothing fails, a filter that applies is started, and the call succeeds. *)
Theorem filter_works : forall E f args tty before run name rest service, Names args before run ((c_slash :: name) :: rest) -> Applies f run -> e_service E = Some service -> (forall i, e_mem E i = true) ->
  e_settty E = true -> e_ttyname E <> None -> e_newname E <> None -> e_fork E = true -> e_fork2 E = true -> (forall n, e_dup E n = true /\ e_keep E n = true /\ e_fdup E n = true /\ e_fkeep E n = true) ->
  (if e_tty0 E && e_tty1 E then e_master E && e_getattr E && e_raw E && e_setsid E && e_grant E && e_unlock E && e_ptsname E && e_slave E && e_mode E else e_socket E) = true ->
  let r := pam_sm E f args tty in r_code r = 0 /\ exists vars tail, r_parent r = Some (Cleared :: Ran (c_slash :: name) vars :: tail).
Proof.
  intros E f args tty before run name rest service N A Hs Hm Hset Ht Hn Hf Hf2 Hd Ho. cbv zeta. destruct (e_ttyname E) as [y|] eqn:Ey; [|congruence]. destruct (e_newname E) as [z|] eqn:Ez; [|congruence].
  assert (Q : forall type, exists c vars, process_args E args type = Some (c, Some (c_slash :: name), vars) /\ (run = lit "run1" -> c_run1 c = true) /\ (run = lit "run2" -> c_run2 c = true)).
  { intros type. destruct (filter_arguments E args before run _ type service N Hs Hm) as (c & nm & H1 & _ & H2 & H3 & H4). injection H1 as <-. exists c. eexists. split; [exact H4|]. split; [apply H2 | apply H3]. }
  assert (SF : forall vars, exists fx ch tail, set_filter E (Some (c_slash :: name)) vars = Two 0 fx ch (Cleared :: Ran (c_slash :: name) vars :: tail)).
  { intros vars. destruct (Hd 0%nat) as (D0 & K0 & F0 & G0), (Hd 1%nat) as (D1 & K1 & F1 & G1), (Hd 2%nat) as (D2 & K2 & F2 & G2).
    unfold set_filter. rewrite Ascii.eqb_refl. cbn [negb]. unfold child, parent, filter. cbv zeta. rewrite Hf, Hf2, D0, D1, D2, K0, K1, K2, F0, F1, F2, G0, G1, G2. cbn [negb andb].
    destruct (e_tty0 E && e_tty1 E); [|rewrite Ho; cbn [negb]; eauto].
    repeat match goal with H : (_ && _) = true |- _ => apply andb_true_iff in H; destruct H end. repeat match goal with H : _ E = true |- _ => rewrite H; clear H end. cbn [negb]. eauto. }
  assert (G : forall type rn, (run = lit "run1" -> fst rn = true) -> (run = lit "run2" -> snd rn = true) -> let r := need_a_filter E args type rn tty in r_code r = 0 /\ exists vars tail, r_parent r = Some (Cleared :: Ran (c_slash :: name) vars :: tail)).
  { intros type rn B1 B2. cbv zeta. destruct (Q type) as (c & vars & P & C1 & C2). unfold need_a_filter. rewrite P. cbv zeta. destruct (SF vars) as (fx & ch & tail & ->).
    assert (R : c_run1 c && fst rn || c_run2 c && snd rn = true).
    { destruct N as (_ & _ & [X | X] & _); [rewrite (C1 X), (B1 X); reflexivity | rewrite (C2 X), (B2 X); apply orb_true_r]. }
    rewrite R. unfold set_the_terminal. rewrite Ey, Ez, Hset. destruct (c_non c), (c_new c), tty; cbn; eauto. }
  destruct N as (_ & _ & Nr & _). assert (D : lit "run1" <> lit "run2") by discriminate.
  destruct f as [| | | | |[|] u]; cbn [pam_sm Applies] in *; [apply G | apply G | apply G | apply G | apply G | apply G | destruct u; [apply G | contradiction]]; cbn [fst snd]; intros; try reflexivity; congruence.
Qed.
(** C115: the first of two processes clears the tokens before anything else; then it runs the filter, once, under its name and with its environment, or none. *)
Theorem filter_ran : forall E f args tty p, r_parent (pam_sm E f args tty) = Some p ->
  exists rest, p = Cleared :: rest /\ (forall name vars, In (Ran name vars) rest ->
    exists type c tail, process_args E args type = Some (c, Some name, vars) /\ option_map fst (of_call f) = Some type /\ rest = Ran name vars :: tail /\ forall n v, ~ In (Ran n v) tail).
Proof.
  intros E f args tty p. rewrite pam_sm_eq. destruct (of_call f) as [[type run]|]; [|discriminate].
  destruct (need_cases E args type run tty) as [(code & tty' & ->) | (c & name & vars & P & _ & [(r & fx & code & tty' & S & ->) | (r & fx & ch & pa & code & tty' & S & -> & _)])]; cbn [r_parent]; [discriminate | discriminate|].
  intros H. injection H as ->. pose proof (set_filter_cases E name vars) as X. rewrite S in X. destruct X as (c0 & n & -> & -> & _ & -> & _).
  assert (W2 : forall t ws a f st n v, ~ In (Ran n v) (wait2 t a f st ws)).
  { intros t ws. induction ws as [|[w x] ws IH]; intros a f0 st n0 v; cbn [wait2].
    - destruct (a || f0); [intros []|]. destruct t; cbn; intuition discriminate.
    - destruct (a || f0); [|destruct t; cbn; intuition discriminate]. intros [H | H]; [discriminate|]. revert H.
      assert (Q : forall s0, ~ In (Ran n0 v) (quit t s0)) by (intros s0; destruct t; cbn; intuition discriminate).
      destruct w; [destruct a; [destruct x; apply IH | apply Q] | destruct f0; [destruct x; apply IH | apply Q] | apply Q]. }
  assert (W1 : forall t ws n v, ~ In (Ran n v) (wait1 t ws)).
  { intros t ws. induction ws as [|[w x] ws IH]; intros n0 v; cbn [wait1]; [intros []|]. intros [H | H]; [discriminate|]. revert H.
    destruct w, x; try (apply IH; fail); (intros [H | H]; [discriminate | exact (W2 _ _ _ _ _ _ _ H)]). }
  eexists. split; [reflexivity|]. intros nm vs H. destruct (e_fork2 E).
  - destruct H as [H | H]; [|exfalso; exact (W1 _ _ _ _ H)]. unfold filter in *. match type of H with context [if ?b then Ran _ _ else _] => destruct b end; [|discriminate]. injection H as <- <-.
    exists type, c. eexists. split; [exact P|]. split; [reflexivity|]. split; [reflexivity | intros n0 v; apply W1].
  - exfalso. destruct H as [H | H]; [discriminate | exact (W2 _ _ _ _ _ _ _ H)].
Qed.
Lemma wait2_stops : forall t ws rest a f st (P : who -> Prop), stops P ws -> (forall w, P w -> (w = App /\ a = true) \/ (w = Filter /\ f = true)) -> (a || f) = true ->
  wait2 t a f st (ws ++ rest) = (map Waited ws ++ wait2 t a f st rest)%list.
Proof.
  intros t ws rest a f st P H HP Hd. induction H as [|[w x] ws (Hw & Hx) H IH]; [reflexivity|]. cbn [fst snd] in *. subst x. cbn [app map wait2]. rewrite Hd.
  destruct (HP w Hw) as [(-> & ->) | (-> & ->)]; cbn [app]; f_equal; exact IH.
Qed.
Lemma wait1_stops : forall t ws rest, stops either ws -> wait1 t (ws ++ rest) = (map Waited ws ++ wait1 t rest)%list.
Proof.
  intros t ws rest H. induction H as [|[w x] ws (Hw & Hx) H IH]; [reflexivity|]. cbn [fst snd] in *. subst x. cbn [app map wait1]. f_equal. destruct w; [exact IH | exact IH | exfalso; now apply Hw].
Qed.
(** C115: the first process lasts until application and filter have ended, in either order, however often they stop in between; it closes the connection when the first of them ends, and its status is
    that of the application. *)
Theorem filter_status : forall E t name vars s1 s2 s3 a x,
  stops either s1 -> ended a -> ended x ->
  (e_fork2 E = true -> e_waits E = (s1 ++ (App, a) :: s2 ++ (Filter, x) :: s3)%list -> stops (eq Filter) s2 ->
     parent E t name vars = (Cleared :: filter E name vars :: map Waited s1 ++ Waited (App, a) :: Closed :: map Waited s2 ++ Waited (Filter, x) :: (if t then [Restored] else []) ++ [Quit (status_of a)])%list) /\
  (e_fork2 E = true -> e_waits E = (s1 ++ (Filter, x) :: s2 ++ (App, a) :: s3)%list -> stops (eq App) s2 ->
     parent E t name vars = (Cleared :: filter E name vars :: map Waited s1 ++ Waited (Filter, x) :: Closed :: map Waited s2 ++ Waited (App, a) :: (if t then [Restored] else []) ++ [Quit (status_of a)])%list) /\
  (e_fork2 E = false -> e_waits E = (s2 ++ (App, a) :: s3)%list -> stops (eq App) s2 ->
     parent E t name vars = (Cleared :: Closed :: map Waited s2 ++ Waited (App, a) :: (if t then [Restored] else []) ++ [Quit (status_of a)])%list).
Proof.
  intros E t name vars s1 s2 s3 a x H1 Ha Hx. unfold parent.
  assert (Q : forall st rest, wait2 t false false st rest = quit t st) by (intros st [|w rest]; reflexivity).
  split; [|split].
  - intros -> -> H2. rewrite (wait1_stops _ _ _ H1). do 3 f_equal. cbn [wait1]. f_equal.
    assert (X : forall st, wait2 t false true st (s2 ++ (Filter, x) :: s3) = (map Waited s2 ++ Waited (Filter, x) :: quit t st)%list).
    { intros st. rewrite (wait2_stops _ _ _ _ _ _ _ H2); [|intros w <-; auto | reflexivity]. f_equal. cbn [wait2 orb]. f_equal. destruct x; [apply Q | apply Q | exfalso; now apply Hx]. }
    destruct a; [rewrite X | rewrite X | exfalso; now apply Ha]; reflexivity.
  - intros -> -> H2. rewrite (wait1_stops _ _ _ H1). do 3 f_equal. cbn [wait1]. f_equal.
    assert (X : forall st, wait2 t true false st (s2 ++ (App, a) :: s3) = (map Waited s2 ++ Waited (App, a) :: quit t (status_of a))%list).
    { intros st. rewrite (wait2_stops _ _ _ _ _ _ _ H2); [|intros w <-; auto | reflexivity]. f_equal. cbn [wait2 orb]. f_equal. destruct a; [apply Q | apply Q | exfalso; now apply Ha]. }
    destruct x; [rewrite X | rewrite X | exfalso; now apply Hx]; reflexivity.
  - intros -> -> H2. do 2 f_equal. rewrite (wait2_stops _ _ _ _ _ _ _ H2); [|intros w <-; auto | reflexivity]. f_equal. cbn [wait2 orb]. f_equal. destruct a; [apply Q | apply Q | exfalso; now apply Ha].
Qed.
(** C115: PAM_TTY: with non_term it is left alone; one that is set is never changed; otherwise the terminal of the process is stored before a filter is started, and without a name for it no filter is. *)
Theorem filter_tty : forall E f args tty c name vars type, option_map fst (of_call f) = Some type -> process_args E args type = Some (c, name, vars) -> let r := pam_sm E f args tty in
  (c_non c = true -> r_tty r = tty) /\
  (tty <> None -> r_tty r = tty) /\
  (c_non c = false -> c_new c = false -> tty = None -> r_tty r = (if e_settty E then e_ttyname E else None) /\ (r_tty r = None -> r_parent r = None /\ r_code r = 26)) /\
  (c_non c = false -> c_new c = true -> tty = None -> r_code r = 0 -> r_tty r = match r_parent r with Some _ => e_newname E | None => e_ttyname E end /\ r_tty r <> None).
Proof.
  intros E f args tty c name vars type O P. cbv zeta. rewrite pam_sm_eq. destruct (of_call f) as [[type0 run]|]; [|discriminate]. cbn in O. injection O as ->. unfold need_a_filter. rewrite P. unfold set_the_terminal. cbv zeta.
  split; [|split; [|split]].
  - intros ->. cbn [negb andb]. rewrite andb_false_r. cbn [andb]. destruct (_ && (_ || _)); [|reflexivity]. destruct (set_filter E name vars) as [r0 fx|r0 fx ch pa]; rewrite andb_false_r; reflexivity.
  - intros N. destruct tty as [y|]; [|congruence]. destruct (negb (c_non c) && negb (c_new c)); cbn [Z.eqb andb];
      (destruct (c_run1 c && fst run || c_run2 c && snd run); [destruct (set_filter E name vars) as [r0 fx|r0 fx ch pa]|]); match goal with |- context [if ?b then _ else _] => destruct b end; reflexivity.
  - intros -> -> ->. cbn [negb andb]. destruct (e_ttyname E) as [y|], (e_settty E); cbn [Z.eqb andb].
    2, 3, 4: split; [reflexivity | auto].
    destruct (c_run1 c && fst run || c_run2 c && snd run); [destruct (set_filter E name vars) as [r0 fx|r0 fx ch pa]|]; rewrite ?andb_false_r; (split; [reflexivity | discriminate]).
  - intros -> -> ->. cbn [negb andb Z.eqb]. destruct (c_run1 c && fst run || c_run2 c && snd run); [destruct (set_filter E name vars) as [r0 fx|r0 fx ch pa]; destruct (Z.eqb_spec r0 0); cbn [andb]|].
    + destruct (e_ttyname E), (e_settty E); cbn [r_code r_tty r_parent]; intros X; try discriminate; split; [reflexivity | discriminate].
    + cbn. intros; contradiction.
    + destruct (e_newname E), (e_settty E); cbn [r_code r_tty r_parent]; intros X; try discriminate; split; [reflexivity | discriminate].
    + cbn. intros; contradiction.
    + destruct (e_ttyname E), (e_settty E); cbn [r_code r_tty r_parent]; intros X; try discriminate; split; [reflexivity | discriminate].
Qed.

(** A terminal, a filter, a user. *)
Definition session (ws : list (who * what)) : env :=
  mkEnv (fun _ => true) (Some (lit "login")) (Some (lit "ann")) true true true true true true true true true true true true true (fun _ => true) (fun _ => true) true ws (fun _ => true) (fun _ => true)
    (Some (lit "/dev/tty1")) (Some (lit "/dev/pts/7")) true.
Definition upper : list cstr := [lit "new_term"; lit "run1"; lit "/usr/lib/upperLOWER"; lit "-x"].
Definition upper_env (type : string) : list cstr := [lit "ARGS=/usr/lib/upperLOWER -x"; lit "SERVICE=login"; lit "USER=ann"; (lit "TYPE=" ++ lit type)%list].
(** C115: refuted: with new_term PAM_TTY is the terminal of the filter afterwards: not if the application has set it. *)
Theorem filter_new_term_refuted : exists E f args tty p, let r := pam_sm E f args tty in r_code r = 0 /\ r_parent r = Some p /\ In (lit "new_term") args /\ e_newname E = Some (lit "/dev/pts/7") /\ r_tty r = Some (lit "tty1").
Proof. exists (session []), Authenticate, upper, (Some (lit "tty1")). eexists. vm_compute. split; [reflexivity|]. split; [reflexivity|]. split; [now left|]. auto. Qed.
(** C115: refuted: the first process waits for the application: another child of the application's, or an interrupted wait, and it ends. *)
Theorem filter_wait_refuted : exists E name vars, parent E true name vars = [Cleared; Ran name vars; Waited (Other, Stopped); Closed; Restored; Quit (-1)] /\ In (App, Exited 0) (e_waits E).
Proof. exists (session [(Other, Stopped); (App, Exited 0)]), (lit "/f"), []. split; [vm_compute; reflexivity | right; now left]. Qed.
(** C115: refuted: the filter is told the type of the call: in account management it is told setcred. *)
Theorem filter_type_refuted : exists E args, r_parent (pam_sm E Account args None) = Some [Cleared; Ran (lit "/usr/lib/upperLOWER") (upper_env "setcred")].
Proof. exists (session []), upper. vm_compute. reflexivity. Qed.

(** * Examples *)
Lemma upper_names : Names upper [lit "new_term"] (lit "run1") [lit "/usr/lib/upperLOWER"; lit "-x"].
Proof. split; [reflexivity|]. split; [discriminate|]. split; [now left|]. intros a [<- | []] [H | H]; discriminate. Qed.
Example filter_arguments_example : exists c, Options c [lit "new_term"] /\ process_args (session []) upper (lit "authenticate") = Some (c, Some (lit "/usr/lib/upperLOWER"), upper_env "authenticate").
Proof. destruct (filter_arguments (session []) upper _ _ _ (lit "authenticate") (lit "login") upper_names eq_refl (fun _ => eq_refl)) as (c & nm & H1 & H2 & _ & _ & H3). exists c. split; [exact H2|]. injection H1 as <-. exact H3. Qed.
Example filter_args_fit_example : length (lit "ARGS=" ++ joined [lit "/f"; lit "a"; lit "b"])%list = 11%nat /\ args_size 0 [lit "/f"; lit "a"; lit "b"] = 6%nat.
Proof. vm_compute. auto. Qed.
(** The filter stops once and ends first; the application ends with status 3. *)
Definition evening : list (who * what) := [(Filter, Stopped); (Filter, Exited 1); (App, Exited 3)].
Example filter_status_example : r_parent (pam_sm (session evening) Authenticate upper None) =
  Some [Cleared; Ran (lit "/usr/lib/upperLOWER") (upper_env "authenticate"); Waited (Filter, Stopped); Waited (Filter, Exited 1); Closed; Waited (App, Exited 3); Restored; Quit 3].
Proof. vm_compute. reflexivity. Qed.
Example filter_restored_example : let r := pam_sm (session evening) Authenticate upper None in r_before r = [Raw] /\ exists p, r_parent r = Some p /\ In (Quit 3) p /\ raw_after (r_before r ++ p) = false.
Proof. vm_compute. split; [reflexivity|]. eexists. split; [reflexivity|]. split; [tauto | reflexivity]. Qed.
Example filter_success_example : let r := pam_sm (session evening) Authenticate upper None in r_code r = 0 /\ r_child r = [SlaveMode; Redirected 0; Redirected 1; Redirected 2] /\ r_tty r = Some (lit "/dev/pts/7").
Proof. vm_compute. auto. Qed.
Example filter_ran_example : exists tail, r_parent (pam_sm (session evening) Authenticate upper None) = Some (Cleared :: Ran (lit "/usr/lib/upperLOWER") (upper_env "authenticate") :: tail).
Proof. eexists. exact filter_status_example. Qed.
Example filter_tty_example : r_tty (pam_sm (session []) Setcred [lit "debug"] None) = Some (lit "/dev/tty1") /\ r_tty (pam_sm (session []) Setcred [lit "non_term"] None) = None.
Proof. vm_compute. auto. Qed.
Example filter_none_example : pam_sm (session []) Setcred upper (Some (lit "tty1")) = mkR 0 (Some (lit "tty1")) [] [] None /\ r_code (pam_sm (session []) Authenticate [lit "run1"; lit "sh"] None) = 26.
Proof. vm_compute. auto. Qed.
Example filter_works_example : r_code (pam_sm (session []) Authenticate upper None) = 0.
Proof. refine (proj1 (filter_works (session []) Authenticate upper None _ _ _ _ (lit "login") upper_names _ _ _ _ _ _ _ _ _ _)); try reflexivity; try discriminate. intros n. repeat split. Qed.

Print Assumptions filter_none. Print Assumptions filter_works.
Print Assumptions filter_arguments. Print Assumptions filter_args_fit. Print Assumptions filter_restored. Print Assumptions filter_success. Print Assumptions filter_ran. Print Assumptions filter_status.
Print Assumptions filter_tty. Print Assumptions filter_new_term_refuted. Print Assumptions filter_wait_refuted. Print Assumptions filter_type_refuted.
