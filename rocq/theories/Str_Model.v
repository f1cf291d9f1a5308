(** Models of string functions of the C library that several modules use. *)
From Coq Require Import String Ascii List Arith ZArith Bool.
From Verif Require Import Base Num_Model.
Import ListNotations.
Local Open Scope Z_scope.

(** strcasecmp(a, b) == 0 in the "C" locale, POSIX. *)
Definition caseeq (a b : cstr) : bool := streq (map tolower a) (map tolower b).

(** c is one of the characters of [set], as in strspn and strtok, C standard 7.24.5. *)
Definition among (set : cstr) (c : ascii) : bool := existsb (Ascii.eqb c) set.

(** The longest start of [s] whose characters satisfy [p], and the rest. *)
Fixpoint span (p : ascii -> bool) (s : cstr) : cstr * cstr :=
  match s with
  | c :: s' => if p c then let '(a, b) := span p s' in (c :: a, b) else ([], s)
  | [] => ([], [])
  end.

(** strtok_r(s, delims, &rest), POSIX: the next token and where the next call goes on; None is NULL. *)
Definition strtok (delims s : cstr) : option (cstr * cstr) :=
  match snd (span (among delims) s) with
  | [] => None
  | s1 => let '(t, r) := span (fun c => negb (among delims c)) s1 in Some (t, List.tl r)
  end.

(** All the tokens of repeated calls of strtok_r; [fuel] more than the length is enough. *)
Fixpoint strtoks_loop (fuel : nat) (delims s : cstr) : list cstr :=
  match fuel with
  | O => []
  | S fuel => match strtok delims s with None => [] | Some (t, r) => t :: strtoks_loop fuel delims r end
  end.
(** The same with enough fuel. *)
Definition strtoks (delims s : cstr) : list cstr := strtoks_loop (S (length s)) delims s.

(** strchr(s, c), C standard 7.24.5.2: the part of [s] from the first [c] on. *)
Fixpoint strchr (c : ascii) (s : cstr) : option cstr :=
  match s with
  | x :: s' => if Ascii.eqb x c then Some s else strchr c s'
  | [] => None
  end.

(** What stands before the first [c] and after it. *)
Fixpoint split_at (c : ascii) (s : cstr) : option (cstr * cstr) :=
  match s with
  | x :: s' => if Ascii.eqb x c then Some ([], s') else match split_at c s' with Some (a, b) => Some (x :: a, b) | None => None end
  | [] => None
  end.

(** The last character of a string; the byte before an empty string is taken to be NUL (see the uses). *)
Definition last_char (s : cstr) : ascii := last s NUL.

(** The decimal digits of [n], put before [acc]. *)
Fixpoint dec_loop (fuel : nat) (n : Z) (acc : cstr) : cstr :=
  match fuel with
  | O => acc
  | S fuel =>
      let acc := chr (48 + Z.to_nat (n mod 10)) :: acc in
      if n / 10 =? 0 then acc else dec_loop fuel (n / 10) acc
  end.
(** printf("%llu") of a number that is not negative. *)
Definition decimal (n : Z) : cstr := dec_loop (S (Z.to_nat (Z.log2 n))) n [].

(** The value of a character as a digit in bases up to 16; 99 if it is none. *)
Definition hex_val (c : ascii) : Z :=
  if isdigit c then digit_val c
  else let n := Z.of_nat (ord (tolower c)) in if (97 <=? n) && (n <=? 102) then n - 87 else 99.

(** The digits in base [b] at the start of [s] added to [acc]; how many there are; what follows. *)
Fixpoint digits_in (b : Z) (s : cstr) (acc : Z) (n : nat) : Z * nat * cstr :=
  match s with
  | c :: s' => if hex_val c <? b then digits_in b s' (acc * b + hex_val c) (S n) else (acc, n, s)
  | [] => (acc, n, [])
  end.

(** strtol(s, &ep, 0), C standard 7.24.1.8: like [strtol] with the base taken from the text: 0x is hexadecimal, 0 octal. *)
Definition strtol0 (s : cstr) : Z * option cstr :=
  let '(neg, s1) := sign (skip_spaces s) in
  let '(v, n, r) :=
    match s1 with
    | z :: x :: d :: _ =>
        if Ascii.eqb z "0"%char && Ascii.eqb (tolower x) "x"%char && (hex_val d <? 16) then digits_in 16 (skipn 2 s1) 0 0
        else if Ascii.eqb z "0"%char then digits_in 8 s1 0 0 else digits_in 10 s1 0 0
    | z :: _ => if Ascii.eqb z "0"%char then digits_in 8 s1 0 0 else digits_in 10 s1 0 0
    | [] => (0, O, [])
    end in
  if Nat.eqb n 0 then (0, None)
  else (clamp LONG_MIN LONG_MAX (if neg then - v else v), Some r).

(** The lines getline(3) delivers, each with its newline except perhaps the last. *)
Fixpoint lines_of (s : list ascii) : list (list ascii) :=
  match s with
  | [] => []
  | c :: t =>
      if Ascii.eqb c c_nl then [c] :: lines_of t
      else match lines_of t with
           | [] => [[c]]
           | l :: ls => (c :: l) :: ls
           end
  end.

(** The C string at the start of a buffer: the bytes before the first NUL. *)
Fixpoint cut (s : list ascii) : cstr :=
  match s with c :: t => if Ascii.eqb c NUL then [] else c :: cut t | [] => [] end.

(** White space removed at the end. *)
Definition rtrim (s : cstr) : cstr := rev (snd (span isspace (rev s))).
