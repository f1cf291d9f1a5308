(** C15: the logical lines of a configuration file. *)
From Coq Require Import String Ascii List Arith ZArith Lia Bool.
From Verif Require Import Base Line_Model Line_Spec Line_Proofs.
Import ListNotations.

(** For every file content: what the code delivers is a reading according to the rules, and it is
    the only one. *)
Theorem lines_follow_the_rules : forall repl content ls ok, good_repl repl -> ~ In NUL content ->
  (file_lines repl (split_lines content) = (ls, ok) <-> logical (added repl) (split_lines content) ls ok).
Proof.
  intros repl content ls ok HG HN. pose proof (split_lines_physical _ HN) as HP. split; intros H.
  - destruct (logical_total (added repl) (split_lines content)) as (ls' & ok' & HL).
    rewrite (logical_file_lines _ _ _ _ HG HL HP) in H. injection H as <- <-. exact HL.
  - exact (logical_file_lines _ _ _ _ HG H HP).
Qed.

(** The physical lines make up the file, and each call of the assembler consumes at least one. *)
Theorem reading_terminates : forall repl content f asm going s rest,
  concat (split_lines content) = content /\
  (assemble repl f asm going = LLine s rest -> length rest < length f).
Proof. intros. split; [apply split_lines_concat|]. intros H. exact (assemble_nil_line _ _ _ _ _ _ H). Qed.

(** A delivered line is a non-empty C string; true even for files with NULs. *)
Theorem delivered_lines_are_strings : forall repl f s rest, assemble repl f None false = LLine s rest -> s <> [] /\ ~ In NUL s.
Proof.
  intros repl f s rest. generalize (@None (list ascii)). generalize false.
  induction f as [|l f IH]; intros going asm H; cbn [assemble] in H; [destruct going; discriminate|].
  destruct (prepare repl l) as [[|] seg]; [|exact (IH _ _ H)].
  destruct (buf_valid (buf_add_eol asm seg)) eqn:EV; [|exact (IH _ _ H)].
  destruct (buf_add_eol asm seg) as [[|c a]|]; try discriminate. cbn [buf_valid] in EV. injection H as <- _. cbn [cpart].
  destruct (Ascii.eqb c NUL) eqn:EC; [discriminate|]. split; [discriminate|].
  assert (X : forall x, ~ In NUL (cpart x)).
  { induction x as [|y x IHx]; [intros []|]. cbn [cpart]. destruct (Ascii.eqb_spec y NUL) as [E|E]; [intros []|].
    intros [X|X]; [congruence|contradiction]. }
  intros [Y|Y]; [subst c; discriminate EC|exact (X _ Y)].
Qed.

(** Reading may break off: getline returns -1 both at the end of the file and on a read error.
    [broken k content]: what arrives when the k-th and later calls of getline fail. *)
Definition broken (k : nat) (content : list ascii) : list (list ascii) := firstn k (split_lines content).

(** A read error in the middle of a file is not always noticed: a file whose reading breaks off
    after its first line is indistinguishable from a shorter file. *)
Theorem read_errors_reported_refuted : exists content k ls,
  k < length (split_lines content) /\ file_lines c_space (broken k content) = (ls, true) /\
  ls <> fst (file_lines c_space (split_lines content)).
Proof.
  exists (lit "auth sufficient a.so" ++ [c_nl] ++ lit "auth required b.so" ++ [c_nl]), 1, [lit "auth sufficient a.so" ++ [c_nl]].
  repeat (split; [vm_compute; try reflexivity; lia|]). vm_compute. discriminate.
Qed.

(** It is noticed when it happens inside a continued line. *)
Theorem cut_continuation_is_an_error : forall repl f, good_repl repl -> Forall physical f -> f <> [] ->
  Forall (fun x => exists body, continued x body /\ ~ In "#"%char body) f -> file_lines repl f = ([], false).
Proof.
  intros repl f HG HP HF H. apply logical_file_lines; auto. apply log_cut; auto.
  eapply Forall_impl; [|exact H]. intros x (body & HC & HH). destruct (text_total (body ++ added repl)) as (t & HT).
  exists t. eapply piece_more; eassumption.
Qed.

(** ** Examples *)
Definition nl : cstr := [c_nl].
Definition ex_file : cstr :=
  lit "# comment \" ++ nl ++ lit "  auth required \  " ++ nl ++ nl ++ lit " " ++ nl ++
  lit "auth [a=b \" ++ nl ++ lit "   c=d] x.so # tail" ++ nl ++ lit "last".

Example ex_lines : file_lines c_space (split_lines ex_file) =
  ([lit "auth required  " ++ nl; lit "auth [a=b  c=d] x.so "; lit "last"], true).
Proof. vm_compute. reflexivity. Qed.

Example ex_lines_nul : fst (file_lines NUL (split_lines (lit "ab\" ++ nl ++ lit "  cd" ++ nl))) = [lit "abcd" ++ nl].
Proof. vm_compute. reflexivity. Qed.

Example ex_cut : file_lines c_space (split_lines (lit "auth required \" ++ nl)) = ([], false).
Proof. vm_compute. reflexivity. Qed.

Example ex_good : good_repl c_space /\ good_repl NUL /\ ~ In NUL ex_file.
Proof.
  split; [split; discriminate|]. split; [split; discriminate|].
  intros H. vm_compute in H. repeat (destruct H as [H|H]; [discriminate H|]). destruct H.
Qed.

Print Assumptions lines_follow_the_rules.
Print Assumptions reading_terminates.
Print Assumptions delivered_lines_are_strings.
Print Assumptions read_errors_reported_refuted.
Print Assumptions cut_continuation_is_an_error.
