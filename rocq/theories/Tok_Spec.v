(** How argument lists are written on a configuration line (pam.conf(5)). *)
From Coq Require Import String Ascii List Arith Bool.
From Verif Require Import Base.
Import ListNotations.

Definition blank_char (c : ascii) : Prop := c = " "%char \/ c = chr 9 \/ c = chr 10.

(** Escaping for use inside brackets. *)
Fixpoint escape (s : cstr) : cstr :=
  match s with [] => [] | c :: t => if Ascii.eqb c "]"%char then chr 92 :: c :: escape t else c :: escape t end.

(** [written s args]: [s] is a correct way to write [args]. *)
Inductive written : cstr -> list cstr -> Prop :=
| wr_end : forall w, Forall blank_char w -> written w []
| wr_plain : forall w a rest args,
    Forall blank_char w ->
    a <> [] -> (forall c, In c a -> ~ blank_char c) -> hd NUL a <> "["%char ->
    match rest with [] => True | c :: _ => blank_char c end ->
    written rest args -> written (w ++ a ++ rest) (a :: args)
| wr_bracket : forall w a rest args,
    Forall blank_char w -> last a NUL <> chr 92 ->
    written rest args -> written (w ++ ("["%char :: escape a ++ "]"%char :: rest)) (a :: args).

(** The C string found at index [i] of a buffer. *)
Definition string_at (buf : list ascii) (i : nat) (s : cstr) : Prop :=
  exists a b, buf = a ++ s ++ NUL :: b /\ length a = i /\ ~ In NUL s.
