(** Helpers shared by the models of the small modules. *)
From Coq Require Import String Ascii List Arith ZArith Bool.
From Verif Require Import Base Num_Model Str_Model.
Import ListNotations.

(** pam_str_skip_prefix, libpam/include/pam_inline.h:70-82: what follows the prefix; None is NULL. *)
Fixpoint skip_prefix (p s : cstr) : option cstr :=
  match p, s with
  | [], _ => Some s
  | x :: p', y :: s' => if Ascii.eqb x y then skip_prefix p' s' else None
  | _ :: _, [] => None
  end.

(** strcspn(line, d) used to end a line, C standard 7.24.5.3: the C string in the buffer cut at the first character of [d]. *)
Definition chomp (d : cstr) (line : list ascii) : cstr := fst (span (fun c => negb (among d c)) (cut line)).

(** strstr(s, t), C standard 7.24.5.7: what stands before the first place where [t] stands in [s], and [s] from there. *)
Fixpoint strstr (t s : cstr) : option (cstr * cstr) :=
  if is_prefix t s then Some ([], s)
  else match s with
       | [] => None
       | c :: s' => match strstr t s' with Some (a, p) => Some (c :: a, p) | None => None end
       end.

(** The fields of [s] between characters [c], empty ones included. *)
Fixpoint fields (c : ascii) (s : cstr) : list cstr :=
  match s with
  | [] => [[]]
  | x :: s' =>
      if Ascii.eqb x c then [] :: fields c s'
      else match fields c s' with w :: ws => (x :: w) :: ws | [] => [[x]] end
  end.

(** ULONG_MAX of limits.h, 64 bits. *)
Definition ULONG_MAX : Z := 18446744073709551615%Z.
(** strtoul(s, &ep, b) for b = 8 and b = 10, C standard 7.24.1.8: the value, kept within unsigned long and negated modulo 2^64 after a
    minus sign; None for the text at ep when no conversion was possible (then ep == s). *)
Definition strtoul (b : Z) (s : cstr) : Z * option cstr :=
  let '(neg, s1) := sign (skip_spaces s) in
  let '(v, n, r) := digits_in b s1 0%Z 0 in
  if Nat.eqb n 0 then (0%Z, None)
  else ((if ULONG_MAX <? v then ULONG_MAX else if neg then (- v) mod (ULONG_MAX + 1) else v)%Z, Some r).
