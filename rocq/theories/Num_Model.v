(** Models of the number conversions of the C library that the modules use. *)
From Coq Require Import List Ascii ZArith Bool.
From Verif Require Import Base.
Import ListNotations.
Local Open Scope Z_scope.

(** long of the supported 64-bit platforms. *)
Definition LONG_MAX : Z := 9223372036854775807.
(** LONG_MIN of limits.h, 64 bits. *)
Definition LONG_MIN : Z := -9223372036854775808.

(** The digits at the start of [s] in base ten added to [acc]; how many there are; what follows. *)
Fixpoint digits (s : cstr) (acc : Z) (n : nat) : Z * nat * cstr :=
  match s with
  | c :: s' => if isdigit c then digits s' (acc * 10 + digit_val c) (S n) else (acc, n, s)
  | [] => (acc, n, [])
  end.

(** The white space strtol skips, C standard 7.22.1.4. *)
Fixpoint skip_spaces (s : cstr) : cstr :=
  match s with
  | c :: s' => if isspace c then skip_spaces s' else s
  | [] => []
  end.

(** An optional sign. *)
Definition sign (s : cstr) : bool * cstr :=
  match s with
  | c :: s' => if Ascii.eqb c "-"%char then (true, s') else if Ascii.eqb c "+"%char then (false, s') else (false, s)
  | [] => (false, [])
  end.

(** strtol(s, &ep, 10), C standard 7.22.1.4: the value, kept within long; None for [*ep] when no conversion was
    possible (then ep == s), otherwise the text at ep. errno is left out: a value out of range shows as LONG_MAX or
    LONG_MIN. *)
Definition clamp (lo hi v : Z) : Z := if v <? lo then lo else if hi <? v then hi else v.
(** strtol(s, &ep, 10) as a whole, see above. *)
Definition strtol (s : cstr) : Z * option cstr :=
  let '(neg, s1) := sign (skip_spaces s) in
  let '(v, n, r) := digits s1 0 0 in
  if Nat.eqb n 0 then (0, None)
  else (clamp LONG_MIN LONG_MAX (if neg then - v else v), Some r).
