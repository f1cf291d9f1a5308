(** C63: pam_securetty lets root in only from the terminals named. *)
From Coq Require Import String Ascii List Arith ZArith Bool Lia.
From Verif Require Import Base Num_Model Str_Model Str_Facts Opt_Model Opt_Facts Securetty_Model.
Import ListNotations.
Local Open Scope Z_scope.

(** ** The spec *)

(** The name of a terminal without /dev/. *)
Definition terminal (t tty : cstr) : Prop := t = (lit "/dev/" ++ tty)%list \/ (tty = t /\ forall r, t <> (lit "/dev/" ++ r)%list).
(** A word on a command line ends here. *)
Definition word_end (r : cstr) : Prop := r = [] \/ exists c r', r = c :: r' /\ (c = ","%char \/ c = " "%char \/ c = c_nl).
(** The first line of a file, as far as it is a C string. *)
Definition first_line (text : list ascii) (l : cstr) : Prop := exists l0 ls, lines_of text = l0 :: ls /\ l = cut l0.
(** console= with the terminal stands on the command line, as a word. *)
Definition console_word (line tty : cstr) : Prop :=
  exists a r, line = (a ++ lit "console=" ++ tty ++ r)%list /\ (a = [] \/ exists a', a = (a' ++ [" "%char])%list) /\ word_end r.
(** The terminal follows the first eight characters of the line. *)
Definition after_eight (line tty : cstr) : Prop := exists x r, line = (x ++ tty ++ r)%list /\ length x = 8%nat /\ word_end r.
(** The terminal is one of the words of the line, which end at its newline. *)
Definition active_word (line tty : cstr) : Prop :=
  ~ In " "%char tty /\ exists l rest, line = (l ++ rest)%list /\ (forall c, In c l -> c <> c_nl) /\ (rest = [] \/ exists r, rest = c_nl :: r) /\
  exists a b, l = (a ++ tty ++ b)%list /\ (a = [] \/ exists a', a = (a' ++ [" "%char])%list) /\ (b = [] \/ exists b', b = " "%char :: b').
(** The user is root, or nobody knows them. *)
Definition rootlike (E : env) (user : cstr) : Prop := e_get_user E = (PAM_SUCCESS, user) /\ (e_uid E user = None \/ e_uid E user = Some 0).
(** The list [f] is the one in force. *)
Definition in_force (E : env) (vendor : option cstr) (f : cstr) (w r : bool) : Prop :=
  (f = lit "/etc/securetty" /\ e_stat E f = SOk w r) \/ (e_stat E (lit "/etc/securetty") = SErr true /\ vendor = Some f /\ e_stat E f = SOk w r).

(** ** The command line *)

Lemma ends_iff : forall e, ends e = true <-> word_end e.
Proof.
  intros [|c e]; cbn [ends]; unfold word_end.
  - split; [left; reflexivity|reflexivity].
  - rewrite !orb_true_iff, !Ascii.eqb_eq. split.
    + intro H. right. exists c, e. split; [reflexivity|]. tauto.
    + intros [H|(c' & r & H & X)]; [discriminate|]. injection H as -> ->. tauto.
Qed.

Definition later (line tty : cstr) : Prop := exists a r, line = (a ++ " "%char :: lit "console=" ++ tty ++ r)%list /\ word_end r.

Lemma app_cut : forall {A} (a b c d : list A), (a ++ b = c ++ d)%list -> (length a <= length c)%nat -> exists m, c = (a ++ m)%list /\ b = (m ++ d)%list.
Proof.
  intros A. induction a as [|x a IH]; intros b c d E L; [exists c; auto|]. destruct c as [|y c]; [cbn in L; lia|].
  cbn [app] in E. injection E as -> E. destruct (IH b c d E) as (m & -> & ->); [cbn in L; lia|]. exists m. auto.
Qed.

Lemma test_iff : forall tty p, (exists e, skip_prefix tty p = Some e /\ ends e = true) <-> exists r, p = (tty ++ r)%list /\ word_end r.
Proof.
  intros tty p. split.
  - intros (e & S1 & X). apply skip_prefix_some in S1. apply ends_iff in X. exists e. auto.
  - intros (r & -> & X). exists r. split; [apply skip_prefix_app|apply ends_iff; exact X].
Qed.

(** A later place is the next one found or after it. *)
Lemma next_place : forall tty c q a p', strstr (lit "console=") q = Some (a, p') ->
  (later (c :: q) tty <-> (last (c :: a) NUL = " "%char /\ exists r, p' = (lit "console=" ++ tty ++ r)%list /\ word_end r) \/ later p' tty).
Proof.
  intros tty c q a p' S1. apply strstr_some in S1. destruct S1 as (-> & _ & M). split.
  - intros (a0 & r & E & W). destruct a0 as [|x a1]; cbn [app] in E; injection E as -> E.
    + assert (L : (length a <= 0)%nat) by (apply (M [] (tty ++ r)%list); exact E). destruct a; [|cbn in L; lia]. left. split; [reflexivity|]. exists r. split; [exact E|exact W].
    + assert (L : (length a <= length (a1 ++ [" "%char]))%nat) by (apply (M (a1 ++ [" "%char])%list (tty ++ r)%list); rewrite E, <- app_assoc; reflexivity).
      rewrite app_length in L. cbn [length] in L. destruct (Nat.eq_dec (length a) (length a1 + 1)) as [E2|NE].
      * destruct (app_cut (a1 ++ [" "%char]) (lit "console=" ++ tty ++ r) a p') as (m & Ea & Ep).
        { rewrite <- app_assoc. symmetry. exact E. } { rewrite app_length. cbn. lia. }
        assert (m = []) by (apply (f_equal (@length ascii)) in Ea; rewrite !app_length in Ea; cbn [length] in Ea; destruct m; [reflexivity|cbn in Ea; lia]). subst m. rewrite app_nil_r in Ea. cbn [app] in Ep.
        left. split; [rewrite Ea; change (x :: a1 ++ [" "%char])%list with ((x :: a1) ++ [" "%char])%list; apply last_app_ne; discriminate|]. exists r. split; [symmetry; exact Ep|exact W].
      * destruct (app_cut a p' a1 (" "%char :: lit "console=" ++ tty ++ r)%list E) as (m & Ea & Ep); [lia|]. right. exists m, r. auto.
  - intros [(L & r & -> & W)|(a0 & r & -> & W)].
    + destruct a as [|y a] using rev_ind.
      * cbn in L. subst c. exists [], r. split; [reflexivity|exact W].
      * clear IHa. assert (y = " "%char) by (change (c :: a ++ [y])%list with ((c :: a) ++ [y])%list in L; rewrite last_app_ne in L by discriminate; exact L). subst y.
        exists (c :: a), r. split; [rewrite <- app_assoc; reflexivity|exact W].
    + exists (c :: a ++ a0)%list, r. split; [cbn [app]; rewrite <- app_assoc; reflexivity|exact W].
Qed.

Lemma no_place : forall tty c q, strstr (lit "console=") q = None -> ~ later (c :: q) tty.
Proof.
  intros tty c q S1 (a & r & E & _). destruct a as [|x a]; cbn [app] in E; injection E as _ E.
  - apply (strstr_none _ _ [] (tty ++ r) S1). exact E.
  - apply (strstr_none _ _ (a ++ [" "%char]) (tty ++ r) S1). rewrite E, <- app_assoc. reflexivity.
Qed.

Lemma loop_iff : forall fuel tty prev p, (length p < fuel)%nat -> (8 <= length p)%nat ->
  (prev <> None -> exists r, p = (lit "console=" ++ r)%list) ->
  exists b, console_loop fuel tty prev p = Ok b /\
    (b = true <-> ((prev = None \/ prev = Some " "%char) /\ exists r, skipn 8 p = (tty ++ r)%list /\ word_end r) \/ later p tty).
Proof.
  induction fuel as [|fuel IH]; intros tty prev p F L P; [lia|]. cbn [console_loop].
  set (next := match p with [] => UB | c :: q => match strstr (lit "console=") q with None => Ok false | Some (a, p') => console_loop fuel tty (Some (last (c :: a) NUL)) p' end end).
  assert (N : exists b, next = Ok b /\ (b = true <-> later p tty)).
  { unfold next. destruct p as [|c q]; [cbn in L; lia|]. destruct (strstr (lit "console=") q) as [[a p']|] eqn:S1.
    - pose proof S1 as S2. apply strstr_some in S2. destruct S2 as (Q & (r0 & Pr) & _).
      destruct (IH tty (Some (last (c :: a) NUL)) p') as (b & -> & B).
      + subst q. cbn [length] in F. rewrite app_length in F. lia.
      + subst p'. rewrite app_length. cbn. lia.
      + intros _. eauto.
      + exists b. split; [reflexivity|]. rewrite B, (next_place _ _ _ _ _ S1). split; (intros [(X & r & Y & W)|X]; [left|right; exact X]).
        * destruct X as [X|X]; [discriminate|]. injection X as X. split; [exact X|]. exists r. split; [|exact W]. rewrite Pr in Y |- *. change (skipn 8 (lit "console=" ++ r0)) with r0 in Y. rewrite Y. reflexivity.
        * split; [right; f_equal; exact X|]. exists r. split; [rewrite Y; reflexivity|exact W].
    - exists false. split; [reflexivity|]. split; [discriminate|]. intro X. destruct (no_place _ _ _ S1 X). }
  destruct N as (b & N & B).
  destruct (match prev with None => false | Some c => negb (Ascii.eqb c " "%char) end) eqn:PV.
  - exists b. split; [exact N|]. rewrite B. split; [auto|]. intros [([->| ->] & _)|X]; [discriminate PV|rewrite Ascii.eqb_refl in PV; discriminate PV|exact X].
  - assert (PS : prev = None \/ prev = Some " "%char).
    { destruct prev as [c|]; [right|left; reflexivity]. apply negb_false_iff, Ascii.eqb_eq in PV. congruence. }
    destruct (Nat.ltb_spec (length p) 8) as [C|C]; [lia|].
    destruct (skip_prefix tty (skipn 8 p)) as [e|] eqn:SK.
    + destruct (ends e) eqn:EN.
      * exists true. split; [reflexivity|]. split; [|reflexivity]. intros _. left. split; [exact PS|]. apply test_iff. exists e. auto.
      * exists b. split; [exact N|]. rewrite B. split; [auto|]. intros [(_ & X)|X]; [|exact X]. apply test_iff in X. destruct X as (e' & X & Y). rewrite SK in X. injection X as <-. congruence.
    + exists b. split; [exact N|]. rewrite B. split; [auto|]. intros [(_ & X)|X]; [|exact X]. apply test_iff in X. destruct X as (e' & X & Y). congruence.
Qed.

Lemma later_word : forall line tty, console_word line tty <-> (exists r, line = (lit "console=" ++ tty ++ r)%list /\ word_end r) \/ later line tty.
Proof.
  intros line tty. split.
  - intros (a & r & -> & [->|(a' & ->)] & W); [left; exists r; auto|right]. exists a', r. split; [rewrite <- app_assoc; reflexivity|exact W].
  - intros [(r & -> & W)|(a & r & -> & W)].
    + exists [], r. auto.
    + exists (a ++ [" "%char])%list, r. split; [rewrite <- app_assoc; reflexivity|]. split; [right; eauto|exact W].
Qed.
Lemma eight_iff : forall line tty, (8 <= length line)%nat -> ((exists r, skipn 8 line = (tty ++ r)%list /\ word_end r) <-> after_eight line tty).
Proof.
  intros line tty L. split.
  - intros (r & E & W). exists (firstn 8 line), r. split; [rewrite <- E; symmetry; apply firstn_skipn|]. split; [apply firstn_length_le; exact L|exact W].
  - intros (x & r & -> & LX & W). exists r. split; [|exact W]. rewrite <- LX. rewrite skipn_app, skipn_all, Nat.sub_diag. reflexivity.
Qed.

(** The command line, exactly. *)
Theorem command_line_test : forall E tty text line, e_open E (lit "/proc/cmdline") = Some text -> first_line text line -> (8 <= length line)%nat ->
  exists b, console E tty = Ok b /\ (b = true <-> console_word line tty \/ after_eight line tty).
Proof.
  intros E tty text line O (l0 & ls & LS & ->) L. unfold console, cmdline_file. rewrite O, LS.
  destruct (loop_iff (S (length (cut l0))) tty None (cut l0)) as (b & -> & B); [lia|exact L|intro X; contradiction|].
  exists b. split; [reflexivity|]. rewrite B, (eight_iff _ _ L), later_word. split.
  - intros [(_ & X)|X]; auto.
  - intros [[(r & E1 & W)|X]|X]; [|auto|left; auto]. left. split; [left; reflexivity|]. exists (lit "console="), r. auto.
Qed.

(** ** The list and the active consoles *)

Lemma listed_iff : forall tty text, listed tty text = true <-> entry [c_nl] text tty.
Proof.
  intros tty text. rewrite <- (chomp_entry [c_nl] text tty (or_introl eq_refl)). unfold listed. rewrite existsb_exists. split.
  - intros (l & I & X). exists l. split; [exact I|]. apply orb_true_iff in X. destruct X as [X|X]; [apply streq_eq; exact X|].
    exfalso. apply andb_true_iff in X. destruct X as (Y & X). apply streq_eq in X. destruct tty as [|c t]; [discriminate Y|]. destruct (isdigit c) eqn:D; [|discriminate Y].
    change (firstn 255 (lit "pts/" ++ c :: t)) with ("p"%char :: firstn 254 (lit "ts/" ++ c :: t)) in X. injection X as X _. subst c. discriminate D.
  - intros (l & I & X). exists l. split; [exact I|]. rewrite X, streq_refl. reflexivity.
Qed.

Lemma chomp_nl : forall line l, chomp [c_nl] line = l <-> exists rest, cut line = (l ++ rest)%list /\ (forall c, In c l -> c <> c_nl) /\ (rest = [] \/ exists r, rest = c_nl :: r).
Proof.
  intros line l. unfold chomp. generalize (cut line). clear line. intro s. revert l. induction s as [|x s IH]; intro l; cbn [span].
  - cbn [fst]. split; [intros <-; exists []; split; [reflexivity|]; split; [intros c []|auto]|]. intros (r & E & _). symmetry in E. apply app_eq_nil in E. symmetry. apply E.
  - destruct (negb (among [c_nl] x)) eqn:A.
    + assert (X : x <> c_nl) by (intros ->; discriminate A). destruct (span (fun c => negb (among [c_nl] c)) s) as [a b]. cbn [fst] in IH |- *. split.
      * intros <-. destruct (IH a) as [(r & E & N & R) _]; [reflexivity|]. exists r. split; [cbn [app]; f_equal; exact E|]. split; [|exact R]. intros c [<-|I]; [exact X|apply N; exact I].
      * intros (r & E & N & R). destruct l as [|y l]; cbn [app] in E; [destruct R as [->|(r' & ->)]; [discriminate|injection E as -> _; contradiction]|].
        injection E as <- E. f_equal. apply IH. exists r. split; [exact E|]. split; [|exact R]. intros c I. apply N. right. exact I.
    + assert (X : x = c_nl) by (cbn in A; rewrite orb_false_r in A; apply negb_false_iff, Ascii.eqb_eq in A; exact A). cbn [fst]. split.
      * intros <-. exists (x :: s). split; [reflexivity|]. split; [intros c []|]. right. exists s. congruence.
      * intros (r & E & N & R). destruct l as [|y l]; [reflexivity|]. cbn [app] in E. injection E as <- _. exfalso. apply (N x); [left; reflexivity|exact X].
Qed.

Theorem active_test : forall E tty text line, e_open E (lit "/sys/class/tty/console/active") = Some text -> first_line text line ->
  (active E tty = true <-> active_word line tty).
Proof.
  intros E tty text line O (l0 & ls & LS & ->). unfold active, active_file. rewrite O, LS. rewrite existsb_exists. unfold active_word. split.
  - intros (w & I & X). apply streq_eq in X. subst w. apply fields_iff in I. destruct I as (N & A). split; [exact N|].
    destruct (proj1 (chomp_nl l0 _) eq_refl) as (rest & C1 & C2 & C3). exists (chomp [c_nl] l0), rest. auto.
  - intros (N & l & rest & C1 & C2 & C3 & A). exists tty. split; [|apply streq_refl]. assert (X : chomp [c_nl] l0 = l) by (apply chomp_nl; exists rest; auto). rewrite X. apply fields_iff. auto.
Qed.

(** ** The module *)

Lemma tty_iff : forall t tty, terminal t tty -> match skip_prefix (lit "/dev/") t with Some s => s | None => t end = tty.
Proof.
  intros t tty [->|(-> & N)]; [rewrite skip_prefix_app; reflexivity|]. destruct (skip_prefix (lit "/dev/") t) as [s|] eqn:X; [|reflexivity].
  apply skip_prefix_some in X. destruct (N s X).
Qed.
Lemma which_iff : forall E vendor f w r, in_force E vendor f w r -> which E vendor = Some (f, (w, r)).
Proof. intros E vendor f w r [(-> & H)|(H & -> & H2)]; unfold which, securetty_file; rewrite H; [reflexivity|]. rewrite H2. reflexivity. Qed.
Lemma noconsole_iff : forall args, noconsole args = true <-> In (lit "noconsole") args.
Proof.
  intro args. unfold noconsole. rewrite existsb_exists. split.
  - intros (x & I & X). apply streq_eq in X. subst x. exact I.
  - intro I. exists (lit "noconsole"). split; [exact I|apply streq_refl].
Qed.

(** Users other than root are not concerned. *)
Theorem others_pass : forall E vendor args user u, e_get_user E = (PAM_SUCCESS, user) -> e_uid E user = Some u -> u <> 0 -> securetty E vendor args = Ok PAM_SUCCESS.
Proof. intros E vendor args user u G U N. unfold securetty. rewrite G, Z.eqb_refl, U. cbn [negb]. destruct (Z.eqb_spec u 0); [contradiction|]. reflexivity. Qed.

(** The terminal is on the kernel's command line: there is none, or it can be read. *)
Definition command_line (E : env) (line : option cstr) : Prop :=
  match e_open E (lit "/proc/cmdline") with
  | None => line = None
  | Some text => (lines_of text = [] /\ line = None) \/ exists l, first_line text l /\ line = Some l /\ (8 <= length l)%nat
  end.
Definition active_line (E : env) (line : option cstr) : Prop :=
  match e_open E (lit "/sys/class/tty/console/active") with
  | None => line = None
  | Some text => (lines_of text = [] /\ line = None) \/ exists l, first_line text l /\ line = Some l
  end.

(** Root is let in exactly from a terminal that the list names or, without noconsole, that is a console. *)
Theorem root_terminals : forall E vendor args user t tty f text cmd act, rootlike E user -> e_tty E = Some t -> terminal t tty ->
  in_force E vendor f false true -> e_open E f = Some text -> command_line E cmd -> active_line E act ->
  (forall l, cmd = Some l -> after_eight l tty -> exists r, l = (lit "console=" ++ r)%list) ->
  (securetty E vendor args = Ok PAM_SUCCESS <->
   entry [c_nl] text tty \/ (~ In (lit "noconsole") args /\ ((exists l, cmd = Some l /\ console_word l tty) \/ exists l, act = Some l /\ active_word l tty))) /\
  (securetty E vendor args = Ok PAM_SUCCESS \/ securetty E vendor args = Ok (match e_uid E user with None => PAM_USER_UNKNOWN | Some _ => PAM_AUTH_ERR end)).
Proof.
  intros E vendor args user t tty f text cmd act (G & U) T TT IF OP CM AC EI. unfold securetty. rewrite G, Z.eqb_refl. cbn [negb].
  assert (X : match e_uid E user with Some u => negb (u =? 0) | None => false end = false) by (destruct U as [->| ->]; reflexivity). rewrite X, T, (tty_iff _ _ TT), (which_iff _ _ _ _ _ IF). cbn [orb negb]. rewrite OP.
  assert (C : exists b, console E tty = Ok b /\ (b = true <-> exists l, cmd = Some l /\ console_word l tty)).
  { unfold command_line in CM. destruct (e_open E (lit "/proc/cmdline")) as [ct|] eqn:OC.
    - destruct CM as [(LN & ->)|(l & FL & -> & L8)].
      + exists false. unfold console, cmdline_file. rewrite OC, LN. split; [reflexivity|]. split; [discriminate|]. intros (l & Y & _). discriminate.
      + destruct (command_line_test E tty ct l OC FL L8) as (b & -> & B). exists b. split; [reflexivity|]. rewrite B. split.
        * intros [Y|Y]; [eauto|]. exists l. split; [reflexivity|]. destruct (EI l eq_refl Y) as (r & ->). destruct Y as (x & r' & E1 & L1 & W).
          exists [], r'. split; [|auto]. cbn [app]. destruct x as [|x1 [|x2 [|x3 [|x4 [|x5 [|x6 [|x7 [|x8 [|x9 x]]]]]]]]]; try (cbn in L1; lia). cbn [app] in E1. injection E1 as _ _ _ _ _ _ _ _ E1. rewrite E1. reflexivity.
        * intros (l' & Y & Z0). injection Y as <-. auto.
    - subst cmd. exists false. unfold console, cmdline_file. rewrite OC. split; [reflexivity|]. split; [discriminate|]. intros (l & Y & _). discriminate. }
  assert (A : active E tty = true <-> exists l, act = Some l /\ active_word l tty).
  { unfold active_line in AC. destruct (e_open E (lit "/sys/class/tty/console/active")) as [ct|] eqn:OC.
    - destruct AC as [(LN & ->)|(l & FL & ->)].
      + unfold active, active_file. rewrite OC, LN. split; [discriminate|]. intros (l & Y & _). discriminate.
      + rewrite (active_test E tty ct l OC FL). split; [eauto|]. intros (l' & Y & Z0). injection Y as <-. exact Z0.
    - subst act. unfold active, active_file. rewrite OC. split; [discriminate|]. intros (l & Y & _). discriminate. }
  destruct C as (b & -> & B).
  assert (R : (match e_uid E user with None => PAM_USER_UNKNOWN | Some _ => PAM_AUTH_ERR end) <> PAM_SUCCESS) by (destruct (e_uid E user); discriminate).
  destruct (listed tty text) eqn:LI.
  - apply listed_iff in LI. cbn [bind]. split; [split; [intros _; left; exact LI|reflexivity]|left; reflexivity].
  - assert (NL : ~ entry [c_nl] text tty) by (intro Y; apply listed_iff in Y; congruence).
    destruct (noconsole args) eqn:NC.
    + apply noconsole_iff in NC. cbn [bind]. split; [|right; reflexivity]. split; [intro Y; injection Y as Y; contradiction|]. intros [Y|(Y & _)]; contradiction.
    + assert (NC' : ~ In (lit "noconsole") args) by (intro Y; apply noconsole_iff in Y; congruence). cbn [bind].
      destruct (b || active E tty) eqn:O.
      * split; [|left; reflexivity]. split; [|reflexivity]. intros _. right. split; [exact NC'|]. apply orb_true_iff in O. rewrite B, A in O. exact O.
      * apply orb_false_iff in O. destruct O as (O1 & O2). split; [|right; reflexivity]. split; [intro Y; injection Y as Y; contradiction|].
        intros [Y|(_ & [Y|Y])]; [contradiction|apply B in Y; congruence|apply A in Y; congruence].
Qed.

(** When the list is not safe, or its terminal unknown, root does not get in. *)
Theorem unsafe_refused : forall E vendor args user, rootlike E user ->
  (e_tty E = None -> securetty E vendor args = Ok PAM_SERVICE_ERR) /\
  (forall t f w r, e_tty E = Some t -> in_force E vendor f w r -> w = true \/ r = false -> securetty E vendor args = Ok PAM_AUTH_ERR) /\
  (forall t f, e_tty E = Some t -> in_force E vendor f false true -> e_open E f = None -> securetty E vendor args = Ok PAM_SERVICE_ERR).
Proof.
  intros E vendor args user (G & U). unfold securetty. rewrite G, Z.eqb_refl. cbn [negb].
  assert (X : match e_uid E user with Some u => negb (u =? 0) | None => false end = false) by (destruct U as [->| ->]; reflexivity). rewrite X. split; [|split].
  - intros ->. reflexivity.
  - intros t f w r -> IF D. rewrite (which_iff _ _ _ _ _ IF). destruct D as [->| ->]; [reflexivity|]. rewrite orb_true_r. reflexivity.
  - intros t f -> IF O. rewrite (which_iff _ _ _ _ _ IF). cbn [orb negb]. rewrite O. reflexivity.
Qed.

(** Without a list in force everyone goes on, also when a vendor's list is there and the other one exists but cannot be looked at. *)
Theorem no_list_passes : forall E vendor args user t, rootlike E user -> e_tty E = Some t -> (forall f w r, ~ in_force E vendor f w r) ->
  securetty E vendor args = Ok PAM_SUCCESS.
Proof.
  intros E vendor args user t (G & U) T N. unfold securetty. rewrite G, Z.eqb_refl. cbn [negb].
  assert (X : match e_uid E user with Some u => negb (u =? 0) | None => false end = false) by (destruct U as [->| ->]; reflexivity). rewrite X, T.
  assert (W : which E vendor = None); [|rewrite W; reflexivity]. unfold which, securetty_file.
  destruct (e_stat E (lit "/etc/securetty")) as [e|w r] eqn:S1; [|exfalso; apply (N (lit "/etc/securetty") w r); left; auto].
  destruct vendor as [f|]; [|reflexivity]. destruct e; [|reflexivity].
  destruct (e_stat E f) as [e2|w r] eqn:S2; [reflexivity|]. exfalso. apply (N f w r). right. auto.
Qed.

(** ** Examples *)
Definition exE (t : string) (cmd : string) : env :=
  mkEnv (PAM_SUCCESS, lit "root") (fun u => if streq u (lit "root") then Some 0 else None) (Some (lit t))
    (fun f => if streq f (lit "/etc/securetty") then SOk false true else SErr true)
    (fun f => if streq f (lit "/etc/securetty") then Some (lit "tty1" ++ c_nl :: lit "pts/0" ++ [c_nl; c_nl])%list
              else if streq f (lit "/proc/cmdline") then Some (lit cmd ++ [c_nl])%list
              else if streq f (lit "/sys/class/tty/console/active") then Some (lit "tty0 hvc0" ++ [c_nl])%list else None).
Example terminals_example : rootlike (exE "/dev/tty1" "quiet console=ttyS0,9600") (lit "root") /\
  securetty (exE "/dev/tty1" "quiet console=ttyS0,9600") None [] = Ok PAM_SUCCESS /\
  securetty (exE "ttyS0" "quiet console=ttyS0,9600") None [] = Ok PAM_SUCCESS /\
  securetty (exE "hvc0" "quiet console=ttyS0,9600") None [lit "debug"] = Ok PAM_SUCCESS /\
  securetty (exE "hvc0" "quiet console=ttyS0,9600") None [lit "noconsole"] = Ok PAM_AUTH_ERR /\
  securetty (exE "ttyS" "quiet console=ttyS0,9600") None [] = Ok PAM_AUTH_ERR.
Proof. split; [split; [reflexivity|right; reflexivity]|]. vm_compute. repeat split. Qed.
Example command_line_example : exists l, command_line (exE "tty1" "quiet console=ttyS0,9600") (Some l) /\ ~ after_eight l (lit "tty1").
Proof.
  exists (lit "quiet console=ttyS0,9600" ++ [c_nl])%list. split.
  - right. exists (lit "quiet console=ttyS0,9600" ++ [c_nl])%list. split; [|split; [reflexivity|cbn; lia]]. eexists _, []. split; [reflexivity|reflexivity].
  - intros (x & r & E & L & _). destruct x as [|x1 [|x2 [|x3 [|x4 [|x5 [|x6 [|x7 [|x8 [|x9 x]]]]]]]]]; try (cbn in L; lia). cbn in E. injection E. intros. congruence.
Qed.

Example no_list_example : let E := mkEnv (PAM_SUCCESS, lit "root") (fun _ => Some 0) (Some (lit "tty9"))
    (fun f => if streq f (lit "/etc/securetty") then SErr false else SOk false true) (fun _ => Some []) in
  rootlike E (lit "root") /\ (forall f w r, ~ in_force E (Some (lit "/usr/etc/securetty")) f w r) /\
  securetty E (Some (lit "/usr/etc/securetty")) [] = Ok PAM_SUCCESS.
Proof.
  split; [split; [reflexivity|right; reflexivity]|]. split; [|vm_compute; reflexivity].
  intros f w r [(-> & X)|(X & _)]; vm_compute in X; discriminate X.
Qed.

(** ** What does not hold *)

(** "A number is short for that pseudo terminal": the line pts/0 does not admit terminal 0. *)
Theorem number_means_pts_refuted : exists E user text, rootlike E user /\ e_tty E = Some (lit "0") /\ in_force E None (lit "/etc/securetty") false true /\
  e_open E (lit "/etc/securetty") = Some text /\ entry [c_nl] text (lit "pts/0") /\ securetty E None [] = Ok PAM_AUTH_ERR.
Proof.
  exists (exE "0" "quiet console=tty0"), (lit "root"). eexists. split; [split; [reflexivity|right; reflexivity]|]. split; [reflexivity|]. split; [left; split; reflexivity|].
  split; [reflexivity|]. split; [|vm_compute; reflexivity]. apply listed_iff. vm_compute. reflexivity.
Qed.

(** "Only console= admits a terminal": what follows the first eight characters does, whatever they are. *)
Theorem console_word_needed_refuted : exists E user text line, rootlike E user /\ e_tty E = Some (lit "ttyS1") /\ ~ entry [c_nl] text (lit "ttyS1") /\
  e_open E (lit "/etc/securetty") = Some text /\ command_line E (Some line) /\ ~ console_word line (lit "ttyS1") /\ active E (lit "ttyS1") = false /\ securetty E None [] = Ok PAM_SUCCESS.
Proof.
  exists (exE "ttyS1" "kgdboc8=ttyS1 quiet"), (lit "root"). eexists. exists (lit "kgdboc8=ttyS1 quiet" ++ [c_nl])%list. split; [split; [reflexivity|right; reflexivity]|]. split; [reflexivity|].
  split; [|split; [reflexivity|]].
  - intro X. apply listed_iff in X. vm_compute in X. discriminate.
  - split; [right; exists (lit "kgdboc8=ttyS1 quiet" ++ [c_nl])%list; split; [eexists _, []; split; reflexivity|split; [reflexivity|cbn; lia]]|]. split; [|split; vm_compute; reflexivity].
    rewrite later_word. intros [(r & X & _)|(a & r & X & _)]; [discriminate X|].
    assert (Y : strstr (lit " console=ttyS1") (lit "kgdboc8=ttyS1 quiet" ++ [c_nl]) = None) by (vm_compute; reflexivity). apply (strstr_none _ _ a r Y). exact X.
Qed.

(** "The call is defined": not with a command line of fewer than eight characters. *)
Theorem defined_refuted : exists E user text, rootlike E user /\ e_open E (lit "/proc/cmdline") = Some text /\ securetty E None [] = UB.
Proof. exists (exE "ttyS1" "quiet"), (lit "root"). eexists. split; [split; [reflexivity|right; reflexivity]|]. split; [reflexivity|]. vm_compute. reflexivity. Qed.

(** "A terminal without a name is not secure": an empty line in the list admits it. *)
Theorem nameless_refused_refuted : exists E user, rootlike E user /\ e_tty E = Some (lit "/dev/") /\ in_force E None (lit "/etc/securetty") false true /\ securetty E None [lit "noconsole"] = Ok PAM_SUCCESS.
Proof. exists (exE "/dev/" "quiet console=tty0"), (lit "root"). split; [split; [reflexivity|right; reflexivity]|]. split; [reflexivity|]. split; [left; split; reflexivity|]. vm_compute. reflexivity. Qed.

(** "Without a list root does not get in": it does, and so does anyone the system does not know. *)
Theorem no_list_refused_refuted : exists E user, rootlike E user /\ e_stat E (lit "/etc/securetty") = SErr false /\ securetty E None [] = Ok PAM_SUCCESS.
Proof. exists (mkEnv (PAM_SUCCESS, lit "eve") (fun _ => None) (Some (lit "x")) (fun _ => SErr false) (fun _ => None)), (lit "eve"). split; [split; [reflexivity|left; reflexivity]|]. split; [reflexivity|]. vm_compute. reflexivity. Qed.

Print Assumptions command_line_test.
Print Assumptions active_test.
Print Assumptions others_pass.
Print Assumptions root_terminals.
Print Assumptions unsafe_refused.
Print Assumptions number_means_pts_refuted.
Print Assumptions console_word_needed_refuted.
Print Assumptions defined_refuted.
Print Assumptions nameless_refused_refuted.
Print Assumptions no_list_refused_refuted.
Print Assumptions no_list_passes.
