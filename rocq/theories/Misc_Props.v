(** C39: misc_conv answers every message or none. *)
From Coq Require Import String Ascii List Arith ZArith Lia Bool.
From Verif Require Import Base Inline_Model Pamc_Model Misc_Model.
Import ListNotations.
Local Open Scope Z_scope.

(** ** Specification *)
(** Messages that ask for text. *)
Definition asks (m : message) : bool := match m with EchoOff _ | EchoOn _ => true | _ => false end.
(** Messages other than binary ones. *)
Definition plain (m : message) : bool := match m with Binary _ => false | _ => true end.
(** Messages a text conversation understands. *)
Definition textual (m : message) : bool :=
  match m with EchoOff _ | EchoOn _ | ErrorMsg _ | TextInfo _ => true | _ => false end.
(** The kind of response a message can have. *)
Definition fits (m : message) (a : answer) : Prop :=
  match m with
  | EchoOff _ | EchoOn _ => a = Null \/ exists s, a = Text s
  | ErrorMsg _ | TextInfo _ => a = Null
  | Binary _ => exists p, a = Prompt p
  | Other _ => False
  end.
(** The responses when the prompts are answered with these lines in order. *)
Fixpoint answers (msgs : list message) (lines : list cstr) : list answer :=
  match msgs with
  | [] => []
  | m :: msgs => if asks m
                 then match lines with l :: ls => Text l :: answers msgs ls | [] => Null :: answers msgs [] end
                 else Null :: answers msgs lines
  end.
(** A line that can be typed: no newline, no NUL, and it fits the buffer with its newline. *)
Definition line_ok (bufsize : nat) (l : cstr) : Prop := ~ In c_nl l /\ is_cstr l /\ (length l + 2 <= bufsize)%nat.
(** Input made of these lines. *)
Fixpoint input (lines : list cstr) (rest : list (option ascii)) : list (option ascii) :=
  match lines with
  | [] => rest
  | l :: ls => map Some l ++ Some c_nl :: input ls rest
  end.

Lemma cut_nul_id : forall l, is_cstr l -> cut_nul l = l.
Proof.
  unfold is_cstr. induction l as [|c l IH]; intro H; [reflexivity|]. cbn [cut_nul].
  destruct (Ascii.eqb_spec c NUL) as [->|N]; [contradiction H; left; reflexivity|].
  rewrite IH; [reflexivity|]. intro X. apply H. right. exact X.
Qed.

Lemma cut_nul_cstr : forall l, is_cstr (cut_nul l).
Proof.
  unfold is_cstr. induction l as [|c l IH]; [intros []|]. cbn [cut_nul].
  destruct (Ascii.eqb_spec c NUL) as [->|N]; [intros []|]. intros [H|H]; [congruence|contradiction].
Qed.

Lemma made_line : forall l x, is_cstr l -> made (Z.of_nat (length (l ++ [c_nl]))) ((l ++ [c_nl]) ++ x)
  = (Z.of_nat (length l), l).
Proof.
  intros l x H. unfold made. rewrite Nat2Z.id.
  assert (F : firstn (length (l ++ [c_nl])) ((l ++ [c_nl]) ++ x) = l ++ [c_nl]).
  { rewrite firstn_app, Nat.sub_diag, firstn_all. cbn [firstn]. apply app_nil_r. }
  cbv zeta. rewrite F, last_last, Ascii.eqb_refl, removelast_last, cut_nul_id by exact H.
  f_equal. rewrite app_length. cbn [length]. lia.
Qed.

Lemma read_line_ok : forall n l rest, ~ In c_nl l -> (length l < n)%nat ->
  read_line n (map Some l ++ Some c_nl :: rest) = (l ++ [c_nl], false, rest).
Proof.
  induction n as [|n IH]; intros l rest H L; [lia|]. destruct l as [|c l].
  - cbn [map app read_line]. rewrite Ascii.eqb_refl. reflexivity.
  - cbn [map app read_line]. destruct (Ascii.eqb_spec c c_nl) as [->|N]; [contradiction H; left; reflexivity|].
    rewrite IH; [reflexivity| |cbn [length] in L; lia]. intro X. apply H. right. exact X.
Qed.

Section Props.
Variable bufsize : nat.
Variable die : Z.
Variable handler : option (bp -> bool * option bp).
Variable default_free ndebug : bool.

(** ** One response for each message *)
Lemma one_fits : forall tty m w k inp a k' inp',
  one_message bufsize tty die handler ndebug m w k inp = Ok (Goes (inl a, k', inp')) -> fits m a.
Proof.
  intros tty m w k inp a k' inp' H. unfold one_message in H. destruct m as [s|s|s|s|[p|]|z].
  - destruct (read_string bufsize tty die w k inp) as [[[[[nc s'] l] k2] i2]| |]; try discriminate.
    destruct (nc <? 0); [discriminate|]. injection H as <- _ _. destruct s'; [right; eexists|left]; reflexivity.
  - destruct (read_string bufsize tty die w k inp) as [[[[[nc s'] l] k2] i2]| |]; try discriminate.
    destruct (nc <? 0); [discriminate|]. injection H as <- _ _. destruct s'; [right; eexists|left]; reflexivity.
  - destruct (print_ok w); [|discriminate]. injection H as <- _ _. reflexivity.
  - destruct (print_ok w); [|discriminate]. injection H as <- _ _. reflexivity.
  - destruct handler as [f|]; [|discriminate].
    destruct (bp_control p); try discriminate. destruct (bp_length p); try discriminate.
    destruct (renew ndebug true (Some None) a0 a1) as [[[[q|]|]|]| |]; try discriminate.
    cbn [thenE] in H. destruct (fill ndebug q 0 a1 (skipn 5 p)) as [[q2|]| |]; try discriminate.
    cbn [thenE] in H. destruct (f q2) as [[|] [q3|]]; try discriminate. injection H as <- _ _. eexists. reflexivity.
  - discriminate.
  - discriminate.
Qed.

Lemma loop_fits : forall tty msgs ws got k inp r k' inp',
  conv_loop bufsize tty die handler default_free ndebug msgs ws got k inp = Ok (Goes (Success r, k', inp')) ->
  exists new, r = got ++ new /\ Forall2 fits msgs new.
Proof.
  intros tty. induction msgs as [|m msgs IH]; intros ws got k inp r k' inp' H.
  - injection H as <- _ _. exists []. rewrite app_nil_r. split; [reflexivity|constructor].
  - destruct ws as [|w ws]; [discriminate|]. cbn [conv_loop] in H.
    destruct (one_message bufsize tty die handler ndebug m w k inp) as [[[[a k2] i2]|]| |] eqn:E; try discriminate.
    cbn [thenE] in H. destruct a as [a|lost].
    + apply one_fits in E. apply IH in H. destruct H as (new & -> & F). exists (a :: new).
      rewrite <- app_assoc. split; [reflexivity|]. constructor; assumption.
    + unfold failed in H. destruct (default_free && _); [discriminate|]. discriminate.
Qed.

(** When misc_conv succeeds there is exactly one response for each message, in order and of its kind: none
    but for prompts, a string without NUL or NULL for a text prompt, and a prompt for a binary one. *)
Theorem one_response_each : forall tty mem msgs ws k inp r k' inp',
  misc_conv bufsize tty die handler default_free ndebug mem msgs ws k inp = Ok (Goes (Success r, k', inp')) ->
  msgs <> [] /\ Forall2 fits msgs r.
Proof.
  intros tty mem msgs ws k inp r k' inp' H. unfold misc_conv in H.
  destruct msgs as [|m msgs]; [discriminate|]. destruct mem; [|discriminate]. cbn [length Nat.eqb negb orb] in H.
  apply loop_fits in H. destruct H as (new & -> & F). split; [discriminate|exact F].
Qed.

(** ** Nothing is left behind *)
Lemma read_string_defined : forall tty w k inp, read_string bufsize tty die w k inp <> UB.
Proof.
  intros tty w k inp. unfold read_string. destruct (tty && negb (attr_ok w)); [discriminate|].
  destruct (get_delay die k (at_time w)) as [delay k2]. clear k.
  generalize (-1), (@nil ascii). revert delay k2 inp.
  induction (turns w) as [|t ts IH]; intros delay k inp nc line; cbn [rs_loop].
  - destruct (delay <? 0); discriminate.
  - destruct (delay <? 0); [discriminate|]. destruct ((0 <? delay) && negb (alarm_ok t)); [discriminate|].
    destruct (one_read bufsize tty t line inp) as [[nc2 line2] inp2].
    destruct ((0 <? delay) && rang t).
    + destruct (get_delay die k (later t)) as [d2 k2]. apply IH.
    + destruct (0 <? nc2); [|discriminate]. destruct (made nc2 line2) as [nc3 s]. destruct (dup_ok w); discriminate.
Qed.

(** Without binary prompts, the call is always defined, never ends the program, and when it fails nothing it
    allocated is left. *)
Theorem failure_leaves_nothing : forall tty mem msgs ws k inp,
  forallb plain msgs = true ->
  misc_conv bufsize tty die handler default_free ndebug mem msgs ws k inp <> UB /\
  misc_conv bufsize tty die handler default_free ndebug mem msgs ws k inp <> Ok Exits /\
  forall lost k' inp',
    misc_conv bufsize tty die handler default_free ndebug mem msgs ws k inp = Ok (Goes (ConvErr lost, k', inp')) ->
    lost = [].
Proof.
  intros tty mem msgs ws k inp P. unfold misc_conv.
  destruct ((length msgs =? 0)%nat || negb mem).
  { split; [discriminate|]. split; [discriminate|]. intros lost k' inp' H. injection H as <- _ _. reflexivity. }
  assert (G : existsb (fun a => match a with Prompt _ => true | _ => false end) (@nil answer) = false) by reflexivity.
  revert G. generalize (@nil answer). revert ws k inp.
  induction msgs as [|m msgs IH]; intros ws k inp got G.
  { split; [discriminate|]. split; [discriminate|]. discriminate. }
  destruct ws as [|w ws]; [split; [discriminate|]; split; discriminate|]. cbn [conv_loop].
  cbn [forallb] in P. apply andb_true_iff in P. destruct P as [Pm P].
  assert (O : forall x, one_message bufsize tty die handler ndebug m w k inp = x ->
    x = OutOfFuel \/ exists a k2 i2, x = Ok (Goes (a, k2, i2)) /\
      (a = inr [] \/ exists b, a = inl b /\ match b with Prompt _ => False | _ => True end)).
  { intros x <-. unfold one_message. destruct m as [s|s|s|s|p|z]; try discriminate;
      try (right; eexists; eexists; eexists; split; [reflexivity|]; destruct (print_ok w); [right|left; reflexivity];
           eexists; split; [reflexivity|exact I]);
      try (right; eexists; eexists; eexists; split; [reflexivity|]; left; reflexivity).
    - assert (D := read_string_defined tty w k inp).
      destruct (read_string bufsize tty die w k inp) as [[[[[nc s'] l] k2] i2]| |]; [|contradiction D; reflexivity|left; reflexivity].
      right. destruct (nc <? 0); eexists; eexists; eexists; (split; [reflexivity|]); [left; reflexivity|right].
      eexists. split; [reflexivity|]. destruct s'; exact I.
    - assert (D := read_string_defined tty w k inp).
      destruct (read_string bufsize tty die w k inp) as [[[[[nc s'] l] k2] i2]| |]; [|contradiction D; reflexivity|left; reflexivity].
      right. destruct (nc <? 0); eexists; eexists; eexists; (split; [reflexivity|]); [left; reflexivity|right].
      eexists. split; [reflexivity|]. destruct s'; exact I. }
  destruct (O _ eq_refl) as [->|(a & k2 & i2 & -> & [->|(b & -> & B)])].
  - cbn [thenE]. split; [discriminate|]. split; discriminate.
  - cbn [thenE]. unfold failed. rewrite G, andb_false_r. cbn [thenE].
    split; [discriminate|]. split; [discriminate|]. intros lost k' inp' H. injection H as <- _ _. reflexivity.
  - cbn [thenE]. apply IH; [exact P|]. rewrite existsb_app, G. cbn [existsb orb]. destruct b; try reflexivity. contradiction.
Qed.

(** ** What was typed *)
(** Nothing interferes: printing and memory work, no time limit is set. *)
Definition calm (w : world) : Prop := attr_ok w = true /\ dup_ok w = true /\ print_ok w = true /\ turns w <> [].

(** The input comes from a pipe or file: each prompt gets the next line, whole and without its newline, and
    the rest of the input is untouched. *)
Theorem lines_answer_prompts : forall msgs ws lines rest w0,
  die = 0 -> msgs <> [] -> forallb textual msgs = true ->
  length ws = length msgs -> Forall calm ws ->
  length lines = length (filter asks msgs) -> Forall (line_ok bufsize) lines ->
  misc_conv bufsize false die handler default_free ndebug true msgs ws (mkClock 0 w0) (input lines rest) =
    Ok (Goes (Success (answers msgs lines), mkClock 0 w0, rest)).
Proof.
  intros msgs ws lines rest w0 D' Ne T Lw C Ll Lo. unfold misc_conv.
  assert (D : (die =? 0) = true) by (apply Z.eqb_eq; exact D'). clear D'.
  destruct msgs as [|m msgs]; [contradiction Ne; reflexivity|]. cbn [length Nat.eqb negb orb].
  assert (G : forall msgs ws lines got, forallb textual msgs = true ->
    length ws = length msgs -> Forall calm ws -> length lines = length (filter asks msgs) ->
    Forall (line_ok bufsize) lines ->
    conv_loop bufsize false die handler default_free ndebug msgs ws got (mkClock 0 w0) (input lines rest) =
    Ok (Goes (Success (got ++ answers msgs lines), mkClock 0 w0, rest))).
  { clear Ne T Lw C Ll Lo m msgs ws lines.
    induction msgs as [|m msgs IH]; intros ws lines got T Lw C Ll Lo.
    { destruct lines; [|discriminate]. destruct ws; [|discriminate]. cbn. rewrite app_nil_r. reflexivity. }
    destruct ws as [|w ws]; [discriminate|]. cbn [conv_loop].
    cbn [forallb] in T. apply andb_true_iff in T. destruct T as [Tm T].
    inversion C as [|? ? (C1 & C2 & C3 & C4) C']; subst. injection Lw as Lw.
    assert (R : forall l ls, lines = l :: ls ->
      read_string bufsize false die w (mkClock 0 w0) (input lines rest) =
      Ok (Z.of_nat (length l), Some l, [], mkClock 0 w0, input ls rest)).
    { intros l ls ->. inversion Lo as [|? ? (L1 & L2 & L3) Lo']; subst.
      unfold read_string. cbn [andb]. unfold get_delay. rewrite D. cbn [Z.eqb negb andb warn].
      destruct (turns w) as [|t ts]; [contradiction C4; reflexivity|].
      cbn [rs_loop Z.ltb Z.compare andb]. unfold one_read. cbn [input].
      rewrite read_line_ok by (try exact L1; lia).
      unfold over. rewrite skipn_nil. 
      assert (0 <? Z.of_nat (length (l ++ [c_nl])) = true) as -> by (apply Z.ltb_lt; rewrite app_length; cbn [length]; lia).
      rewrite made_line by exact L2. rewrite C2. reflexivity. }
    unfold one_message. destruct m as [s|s|s|s|p|z]; try discriminate; cbn [filter asks] in Ll.
    - destruct lines as [|l ls]; [discriminate|]. rewrite (R l ls eq_refl). 
      destruct (Z.of_nat (length l) <? 0) eqn:E; [apply Z.ltb_lt in E; lia|]. cbn [thenE].
      inversion Lo; subst. rewrite IH by (auto; injection Ll; auto). rewrite <- app_assoc. reflexivity.
    - destruct lines as [|l ls]; [discriminate|]. rewrite (R l ls eq_refl). 
      destruct (Z.of_nat (length l) <? 0) eqn:E; [apply Z.ltb_lt in E; lia|]. cbn [thenE].
      inversion Lo; subst. rewrite IH by (auto; injection Ll; auto). rewrite <- app_assoc. reflexivity.
    - rewrite C3. cbn [thenE]. rewrite IH by auto. rewrite <- app_assoc. reflexivity.
    - rewrite C3. cbn [thenE]. rewrite IH by auto. rewrite <- app_assoc. reflexivity. }
  rewrite G by assumption. reflexivity.
Qed.

(** At a terminal, the same with what is typed at each prompt. *)
Inductive types : list message -> list world -> list cstr -> Prop :=
| t_nil : types [] [] []
| t_ask : forall m msgs w ws l ls t ts, asks m = true -> calm w -> turns w = t :: ts ->
    typed t = Some (l ++ [c_nl]) -> types msgs ws ls -> types (m :: msgs) (w :: ws) (l :: ls)
| t_tell : forall m msgs w ws ls, asks m = false -> textual m = true -> calm w -> types msgs ws ls ->
    types (m :: msgs) (w :: ws) ls.

Theorem terminal_answers_prompts : forall msgs ws lines w0 inp,
  die = 0 -> msgs <> [] -> types msgs ws lines -> Forall (line_ok bufsize) lines ->
  misc_conv bufsize true die handler default_free ndebug true msgs ws (mkClock 0 w0) inp =
    Ok (Goes (Success (answers msgs lines), mkClock 0 w0, inp)).
Proof.
  intros msgs ws lines w0 inp D' Ne T Lo. unfold misc_conv.
  assert (D : (die =? 0) = true) by (apply Z.eqb_eq; exact D'). clear D'.
  destruct msgs as [|m0 msgs]; [contradiction Ne; reflexivity|]. cbn [length Nat.eqb negb orb].
  assert (G : forall msgs ws lines, types msgs ws lines -> forall got, Forall (line_ok bufsize) lines ->
    conv_loop bufsize true die handler default_free ndebug msgs ws got (mkClock 0 w0) inp =
    Ok (Goes (Success (got ++ answers msgs lines), mkClock 0 w0, inp))).
  { clear Ne T Lo m0 msgs ws lines. intros msgs ws lines T.
    induction T as [|m msgs w ws l ls t ts A (C1 & C2 & C3 & C4) Et Ty T IH
                   |m msgs w ws ls A Tx (C1 & C2 & C3 & C4) T IH]; intros got Lo.
    - cbn. rewrite app_nil_r. reflexivity.
    - inversion Lo as [|? ? (L1 & L2 & L3) Lo']; subst. cbn [conv_loop].
      assert (R : read_string bufsize true die w (mkClock 0 w0) inp =
        Ok (Z.of_nat (length l), Some l, [], mkClock 0 w0, inp)).
      { unfold read_string. rewrite C1. cbn [andb negb]. unfold get_delay. rewrite D. cbn [Z.eqb negb andb warn].
        rewrite Et. cbn [rs_loop Z.ltb Z.compare andb]. unfold one_read. rewrite Ty. cbv zeta.
        rewrite firstn_all2 by (rewrite app_length; cbn [length]; lia).
        unfold over. rewrite skipn_nil.
        assert (0 <? Z.of_nat (length (l ++ [c_nl])) = true) as -> by (apply Z.ltb_lt; rewrite app_length; cbn [length]; lia).
        rewrite made_line by exact L2. rewrite C2. reflexivity. }
      assert (O : one_message bufsize true die handler ndebug m w (mkClock 0 w0) inp =
                  Ok (Goes (inl (Text l), mkClock 0 w0, inp))).
      { unfold one_message. destruct m; try discriminate; rewrite R;
          (destruct (Z.of_nat (length l) <? 0) eqn:E; [apply Z.ltb_lt in E; lia|]); reflexivity. }
      rewrite O. cbn [thenE]. rewrite IH by exact Lo'. rewrite <- app_assoc. cbn [answers]. rewrite A. reflexivity.
    - cbn [conv_loop].
      assert (O : one_message bufsize true die handler ndebug m w (mkClock 0 w0) inp =
                  Ok (Goes (inl Null, mkClock 0 w0, inp))).
      { unfold one_message. destruct m; try discriminate; rewrite C3; reflexivity. }
      rewrite O. cbn [thenE]. rewrite IH by exact Lo. rewrite <- app_assoc. cbn [answers]. rewrite A. reflexivity. }
  rewrite (G _ _ _ T [] Lo). reflexivity.
Qed.

(** With no time limit, nothing typed stays in the line buffer when read_string returns. *)
Theorem line_wiped : forall tty w w0 inp nc s left k' inp',
  die = 0 ->
  read_string bufsize tty die w (mkClock 0 w0) inp = Ok (nc, s, left, k', inp') ->
  Forall (fun c => c = NUL) left.
Proof.
  intros tty w w0 inp nc s left k' inp' D H. unfold read_string in H.
  destruct (tty && negb (attr_ok w)); [injection H as _ _ <- _ _; constructor|].
  unfold get_delay in H. rewrite D in H. cbn [Z.eqb negb andb warn] in H.
  destruct (turns w) as [|t ts]; [discriminate|]. cbn [rs_loop Z.ltb Z.compare andb] in H.
  unfold one_read in H. destruct tty.
  - destruct (typed t) as [d|].
    + cbv zeta in H. destruct (firstn (bufsize - 1) d) as [|c l] eqn:E.
      * cbn in H. injection H as _ _ <- _ _. constructor.
      * assert (0 <? Z.of_nat (length (c :: l)) = true) as X by (apply Z.ltb_lt; cbn [length]; lia).
        rewrite X in H. destruct (made _ _) as [nc3 s3]. destruct (dup_ok w); injection H as _ _ <- _ _; constructor.
    + cbn in H. injection H as _ _ <- _ _. constructor.
  - destruct (read_line (bufsize - 1) inp) as [[d e] i2]. destruct e.
    + cbn [Z.ltb Z.compare] in H. injection H as _ _ <- _ _. unfold over. rewrite skipn_nil, app_nil_r.
      apply Forall_forall. intros c X. apply repeat_spec in X. exact X.
    + destruct d as [|c l].
      * cbn in H. injection H as _ _ <- _ _. constructor.
      * assert (0 <? Z.of_nat (length (c :: l)) = true) as X by (apply Z.ltb_lt; cbn [length]; lia).
        rewrite X in H. destruct (made _ _) as [nc3 s3]. destruct (dup_ok w); injection H as _ _ <- _ _; constructor.
Qed.

(** Once the die time has passed, a prompt fails at once, reading nothing, and the application can see why. *)
Theorem time_up_fails : forall tty w k inp,
  die <> 0 -> die <= at_time w -> attr_ok w = true ->
  read_string bufsize tty die w k inp = Ok (-1, None, [], mkClock (warn k) true, inp).
Proof.
  intros tty w k inp D L A. unfold read_string. rewrite A, andb_false_r. unfold get_delay.
  destruct (die =? 0) eqn:E; [apply Z.eqb_eq in E; contradiction|].
  destruct (die <=? at_time w) eqn:E2; [|apply Z.leb_gt in E2; lia]. cbn [negb andb].
  destruct (turns w); reflexivity.
Qed.
End Props.

Example lines_answer_prompts_ex :
  let w := mkWorld true 0 [mkTurn true None false 0] true true in
  misc_conv 4096 false 0 None true false true
    [EchoOn (lit "login: "); TextInfo (lit "hello"); EchoOff (lit "Password: ")] [w; w; w] (mkClock 0 false)
    (input [lit "ann"; lit "secret"] [Some "x"%char]) =
  Ok (Goes (Success [Text (lit "ann"); Null; Text (lit "secret")], mkClock 0 false, [Some "x"%char])).
Proof.
  cbv zeta. vm_compute. reflexivity.
Qed.
Example lines_answer_prompts_meets :
  calm (mkWorld true 0 [mkTurn true None false 0] true true) /\ Forall (line_ok 4096) [lit "ann"; lit "secret"].
Proof.
  split; [repeat constructor; discriminate|].
  repeat constructor; unfold is_cstr; try (intro H; vm_compute in H; intuition discriminate);
      apply Nat.leb_le; reflexivity.
Qed.
Example terminal_ex :
  let w l := mkWorld true 0 [mkTurn true (Some (lit l ++ [c_nl])) false 0] true true in
  types [EchoOn []; ErrorMsg []; EchoOff []] [w "ann"%string; w ""%string; w "pw"%string] [lit "ann"; lit "pw"].
Proof.
  cbv zeta. eapply t_ask; [reflexivity|repeat constructor; discriminate|reflexivity|reflexivity|].
  apply t_tell; [reflexivity|reflexivity|repeat constructor; discriminate|].
  eapply t_ask; [reflexivity|repeat constructor; discriminate|reflexivity|reflexivity|constructor].
Qed.

(** ** What does not hold *)
(** A binary prompt answered and a later message failing: the default freeing function is given the prompt
    where it expects the address of a pointer to it, and follows its bytes. *)
Theorem failure_after_binary_is_safe_refuted :
  let w := mkWorld true 0 [] true false in
  let p := map chr [0; 0; 0; 6; 1; 65]%nat in
  misc_conv 4096 false 0 (Some (fun q => (true, Some q))) true false true
    [Binary (Some p); TextInfo (lit "x")] [w; w] (mkClock 0 false) [] = UB.
Proof. vm_compute. reflexivity. Qed.

(** A binary message whose control is 0 makes the function fill a prompt that is not there. *)
Theorem any_binary_message_is_safe_refuted :
  let w := mkWorld true 0 [] true true in
  let p := map chr [0; 0; 0; 6; 0; 65]%nat in
  misc_conv 4096 false 0 (Some (fun q => (true, Some q))) true false true [Binary (Some p)] [w] (mkClock 0 false) [] = UB.
Proof. vm_compute. reflexivity. Qed.

(** A handler that fails and leaves the prompt: the prompt is never freed. *)
Theorem handler_failure_frees_refuted :
  let w := mkWorld true 0 [] true true in
  let p := map chr [0; 0; 0; 6; 1; 65]%nat in
  exists q, misc_conv 4096 false 0 (Some (fun q => (false, Some q))) true false true [Binary (Some p)] [w] (mkClock 0 false) [] =
  Ok (Goes (ConvErr [q], mkClock 0 false, [])).
Proof. eexists. vm_compute. reflexivity. Qed.

(** Time running out after the line was read but before the alarm is switched off: misc_conv succeeds, with
    no response. *)
Theorem time_out_is_error_refuted :
  let w := mkWorld true 100 [mkTurn true (Some (lit "pw" ++ [c_nl])) true 160] true true in
  misc_conv 4096 true 160 None true false true [EchoOff (lit "Password: ")] [w] (mkClock 0 false) [] =
  Ok (Goes (Success [Null], mkClock 0 true, [])).
Proof. vm_compute. reflexivity. Qed.

(** An end of file is no error either. *)
Theorem end_of_input_is_error_refuted :
  let w := mkWorld true 0 [mkTurn true None false 0] true true in
  misc_conv 4096 false 0 None true false true [EchoOff (lit "Password: ")] [w] (mkClock 0 false) [] =
  Ok (Goes (Success [Null], mkClock 0 false, [])).
Proof. vm_compute. reflexivity. Qed.

(** A line too long for the buffer: what is over answers the next prompt. *)
Theorem each_line_one_prompt_refuted :
  let w := mkWorld true 0 [mkTurn true None false 0] true true in
  misc_conv 8 false 0 None true false true [EchoOn []; EchoOff []] [w; w] (mkClock 0 false)
    (input [lit "much-too-long"; lit "pw"] []) =
  Ok (Goes (Success [Text (lit "much-to"); Text (lit "o-long")], mkClock 0 false, input [lit "pw"] [])).
Proof. vm_compute. reflexivity. Qed.

(** With a warning set, what was typed before it stays in the buffer if the user then gives up. *)
Theorem line_always_wiped_refuted :
  let w := mkWorld true 100 [mkTurn true (Some (lit "secret")) true 130; mkTurn true (Some []) false 131] true true in
  read_string 4096 true 160 w (mkClock 130 false) [] =
  Ok (0, None, lit "secret", mkClock 0 false, []).
Proof. vm_compute. reflexivity. Qed.

Print Assumptions one_response_each.
Print Assumptions failure_leaves_nothing.
Print Assumptions lines_answer_prompts.
Print Assumptions terminal_answers_prompts.
Print Assumptions line_wiped.
Print Assumptions time_up_fails.
Print Assumptions failure_after_binary_is_safe_refuted.
Print Assumptions any_binary_message_is_safe_refuted.
Print Assumptions handler_failure_frees_refuted.
Print Assumptions time_out_is_error_refuted.
Print Assumptions end_of_input_is_error_refuted.
Print Assumptions each_line_one_prompt_refuted.
Print Assumptions line_always_wiped_refuted.
