(** C12: module arguments. *)
From Coq Require Import String Ascii List Arith ZArith Lia Bool.
From Verif Require Import Base Tok_Model Tok_Spec Tok_Proofs.
Import ListNotations.

(** Writing a list of arguments and splitting it again gives the same list, in memory. *)
Theorem arguments_round_trip : forall s args, written s args -> s <> [] -> ~ In NUL s ->
  (Z.of_nat (length s) <= INT_MAX)%Z ->
  exists buf argv, mkargv_mem false s = Ok (Some (buf, argv)) /\ Forall2 (string_at buf) argv args.
Proof.
  intros s args HW HS HN HI. destruct (mkargv_mem_spec s HS HN HI) as (buf & argv & E & F & _ & _).
  exists buf, argv. split; [exact E|].
  assert (EQ : mkargv s = args) by (unfold mkargv; apply tokens_written; [exact HW|lia]). rewrite <- EQ. exact F.
Qed.

(** Every list of arguments that do not end in a backslash and contain no NUL can be written. *)
Fixpoint bracketed (args : list cstr) : cstr :=
  match args with
  | [] => []
  | a :: rest => "["%char :: escape a ++ "]"%char :: bracketed rest
  end.

Theorem every_list_can_be_written : forall args, Forall (fun a => last a NUL <> chr 92) args -> written (bracketed args) args.
Proof.
  intros args H. induction H as [|a args Ha H IH]; [apply wr_end; constructor|].
  cbn [bracketed]. change ("["%char :: escape a ++ "]"%char :: bracketed args)
    with ([] ++ ("["%char :: escape a ++ "]"%char :: bracketed args)).
  apply wr_bracket; auto.
Qed.

(** Splitting any string: no access outside the buffer, at most one argument per byte, and every
    argument is a string inside the copied text. *)
Theorem splitting_is_safe : forall s oom, ~ In NUL s -> (Z.of_nat (length s) <= INT_MAX)%Z ->
  mkargv_mem oom s = Ok None \/
  exists buf argv, mkargv_mem oom s = Ok (Some (buf, argv)) /\ length argv <= length s /\ length buf = S (length s) /\
    Forall (fun i => exists a, string_at buf i a) argv.
Proof.
  intros s oom HN HI. destruct s as [|c t] eqn:ES; [left; reflexivity|]. destruct oom; [left; reflexivity|]. right.
  rewrite <- ES in *. assert (HS : s <> []) by (rewrite ES; discriminate).
  destruct (mkargv_mem_spec s HS HN HI) as (buf & argv & E & F & L & LB).
  exists buf, argv. split; [exact E|]. split; [exact L|]. split; [exact LB|].
  clear -F. induction F; constructor; eauto.
Qed.

(** One token, in any buffer: no access outside it, nothing before the start or the length changes,
    and the token is a string inside the buffer. *)
Theorem one_token_is_safe : forall pre s post, ~ In NUL s ->
  exists buf r, tokenize_mem (pre ++ s ++ NUL :: post) (length pre) = Ok (buf, r) /\
    length buf = length (pre ++ s ++ NUL :: post) /\ (exists tail, buf = pre ++ tail) /\
    match r with
    | Some (i, _) => length pre <= i /\ exists t, string_at buf i t
    | None => buf = pre ++ s ++ NUL :: post
    end.
Proof.
  intros pre s post HN. pose proof (tokenize_mem_spec pre s post HN) as H.
  destruct (tokenize s) as [[t [s'|]]|].
  - destruct H as (u & v & HT & HL & _ & _ & _ & E). eexists _, _. split; [exact E|].
    split; [rewrite !(app_length pre), HL; reflexivity|]. split; [eexists; reflexivity|].
    split; [lia|]. exists t. exists (pre ++ u), (v ++ s' ++ NUL :: post). rewrite <- !app_assoc.
    split; [reflexivity|]. split; [apply app_length|exact HT].
  - destruct H as (u & v & HT & HL & E). eexists _, _. split; [exact E|].
    split; [rewrite !(app_length pre), HL; reflexivity|]. split; [eexists; reflexivity|].
    split; [lia|]. exists t. exists (pre ++ u), v. rewrite <- !app_assoc.
    split; [reflexivity|]. split; [apply app_length|exact HT].
  - eexists _, _. split; [exact H|]. split; [reflexivity|]. split; [eexists; reflexivity|reflexivity].
Qed.

(** ** What cannot be passed *)

Lemma take_word_no_space : forall s a b, take_word s = (a, b) -> ~ In c_space a.
Proof.
  induction s as [|c s IH]; intros a b H; cbn [take_word] in H.
  - inversion H; subst. intros [].
  - destruct (is_delim c) eqn:E; [inversion H; subst; intros []|].
    destruct (take_word s) as [a' b'] eqn:ET. inversion H; subst. intros [->|HI]; [discriminate E|exact (IH _ _ eq_refl HI)].
Qed.

Lemma take_bracket_last : forall n s a b, length s < n -> take_bracket s = (a, b) -> b <> [] -> last a NUL <> c_bslash.
Proof.
  induction n as [|n IH]; intros s a b HL H HB; [lia|]. destruct s as [|c s]; cbn [take_bracket] in H; [inversion H; subst; congruence|].
  cbn [length] in HL. destruct (Ascii.eqb_spec c c_rbr) as [->|NR]; [inversion H; subst; discriminate|].
  destruct (Ascii.eqb_spec c c_bslash) as [->|NB].
  - destruct s as [|d t]; [inversion H; subst; congruence|]. cbn [length] in HL. destruct (Ascii.eqb_spec d c_rbr) as [->|ND].
    + destruct (take_bracket t) as [a' b'] eqn:ET. inversion H; subst. destruct a' as [|x a']; [discriminate|].
      change (last (c_rbr :: x :: a') NUL) with (last (x :: a') NUL). apply (IH t _ b); auto; lia.
    + destruct (take_bracket (d :: t)) as [a' b'] eqn:ET. inversion H; subst. destruct a' as [|x a'].
      * exfalso. cbn [take_bracket] in ET. destruct (Ascii.eqb_spec d c_rbr); [congruence|].
        destruct (Ascii.eqb d c_bslash); [destruct t as [|y t']; [discriminate|destruct (Ascii.eqb y c_rbr)]|];
          match type of ET with (let (_, _) := ?x in _) = _ => destruct x; discriminate | _ => idtac end.
      * change (last (c_bslash :: x :: a') NUL) with (last (x :: a') NUL). apply (IH (d :: t) _ b); auto; cbn [length]; lia.
  - destruct (take_bracket s) as [a' b'] eqn:ET. inversion H; subst. destruct a' as [|x a']; [cbn [last]; congruence|].
    change (last (c :: x :: a') NUL) with (last (x :: a') NUL). apply (IH s _ b); auto; lia.
Qed.

(** The quoting has a gap: no text whatsoever makes the splitter produce an argument that contains
    a blank and ends in a backslash, followed by another argument. *)
Theorem every_list_can_be_passed_refuted : exists args, Forall (fun a => ~ In NUL a) args /\ forall s, mkargv s <> args.
Proof.
  exists [lit "a b" ++ [c_bslash]; lit "x"]. split.
  - repeat constructor; cbn; intros H; repeat (destruct H as [H|H]; [discriminate H|]); destruct H.
  - intros s H. unfold mkargv in H. cbn [tokens tokenize_next] in H. unfold tokenize in H.
    destruct (drop_delims s) as [|c t]; [discriminate|].
    destruct (if Ascii.eqb c c_lbr then take_bracket t else take_word (c :: t)) as [tok rest] eqn:E.
    injection H as H1 H2.
    assert (HR : rest <> []). { intros ->. cbn [next_of] in H2. destruct (length s); discriminate H2. }
    destruct (Ascii.eqb c c_lbr).
    + pose proof (take_bracket_last _ _ _ _ (Nat.lt_succ_diag_r _) E HR) as HX. rewrite H1 in HX. apply HX. reflexivity.
    + apply (take_word_no_space _ _ _ E). rewrite H1. right; left; reflexivity.
Qed.

(** ** Examples *)

Definition ex_line : cstr := lit "debug  [user = a\] b] file=/x ".
Definition ex_args : list cstr := [lit "debug"; lit "user = a] b"; lit "file=/x"].

Example ex_written : written ex_line ex_args.
Proof.
  change ex_line with ([] ++ lit "debug" ++ (lit "  " ++ ("["%char :: escape (lit "user = a] b") ++ "]"%char ::
    (lit " " ++ lit "file=/x" ++ lit " ")))).
  unfold ex_args.
  apply wr_plain; [constructor|discriminate| |discriminate|left; reflexivity|].
  { intros c HI [H|[H|H]]; subst c; repeat (destruct HI as [HI|HI]; [discriminate HI|]); destruct HI. }
  apply wr_bracket; [repeat constructor|discriminate|].
  apply wr_plain; [repeat constructor|discriminate| |discriminate|left; reflexivity|].
  { intros c HI [H|[H|H]]; subst c; repeat (destruct HI as [HI|HI]; [discriminate HI|]); destruct HI. }
  apply wr_end. repeat constructor.
Qed.

Example ex_split : exists buf, mkargv_mem false ex_line = Ok (Some (buf, [0; 8; 22])%nat) /\
  string_at buf 8 (lit "user = a] b").
Proof.
  eexists. split; [vm_compute; reflexivity|]. exists (firstn 8 (lit "debug" ++ [NUL] ++ lit " [")).
  eexists. split; [vm_compute; reflexivity|]. split; [reflexivity|].
  intros H; repeat (destruct H as [H|H]; [discriminate H|]); destruct H.
Qed.

Print Assumptions arguments_round_trip.
Print Assumptions every_list_can_be_written.
Print Assumptions splitting_is_safe.
Print Assumptions one_token_is_safe.
Print Assumptions every_list_can_be_passed_refuted.
