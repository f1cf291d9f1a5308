(** What an access table means, stated without reference to the code. *)
From Coq Require Import String Ascii List Arith ZArith Bool.
From Verif Require Import Base Str_Model Str_Facts.
Import ListNotations.
Local Open Scope Z_scope.

(** The same word but for the case of letters. *)
Definition same_word (a b : cstr) : Prop := map tolower a = map tolower b.
(** The word EXCEPT in any case. *)
Definition is_except (w : cstr) : Prop := same_word w (lit "except").

(** A list "words EXCEPT list" stands for the words without what the list after EXCEPT stands for. *)
Inductive listed (m : cstr -> bool) : list cstr -> bool -> Prop :=
| listed_plain : forall l, Forall (fun w => ~ is_except w) l -> listed m l (existsb m l)
| listed_except : forall l e r b, Forall (fun w => ~ is_except w) l -> is_except e -> listed m r b ->
    listed m (l ++ e :: r) (existsb m l && negb b).
(** A field of a rule: words between separators. *)
Definition field_matches (sep : cstr) (m : cstr -> bool) (f : cstr) (b : bool) : Prop :=
  exists ws, words sep f ws /\ listed m ws b.

(** A line that is a rule: separators, the permission starting with a plus or minus sign, separators, the users, one
    separator, the origins, trailing white space. It lets in if the line starts with a plus sign. *)
Definition is_rule (fs : cstr) (l : list ascii) (grant : bool) (users origins : cstr) : Prop :=
  exists pre perm x mid y blanks,
    l = pre ++ perm ++ x :: mid ++ users ++ y :: origins ++ blanks ++ [c_nl] /\
    all_sep fs pre /\ perm <> [] /\ no_sep fs perm /\ In x fs /\ all_sep fs mid /\ users <> [] /\ no_sep fs users /\ In y fs /\
    origins <> [] /\ isspace (last origins NUL) = false /\ forallb isspace blanks = true /\
    ~ In NUL l /\ hd NUL l <> c_hash /\ (hd NUL perm = "+"%char \/ hd NUL perm = "-"%char) /\
    grant = Ascii.eqb (hd NUL l) "+"%char.

(** The first rule whose two fields match decides; None if there is none. Lines that are no rules do not count. *)
Inductive decides (fs sep : cstr) (mu mf : cstr -> bool) : list (list ascii) -> option bool -> Prop :=
| decides_none : decides fs sep mu mf [] None
| decides_rule : forall l ls g u f, is_rule fs l g u f -> field_matches sep mu u true -> field_matches sep mf f true ->
    decides fs sep mu mf (l :: ls) (Some g)
| decides_user : forall l ls g u f v, is_rule fs l g u f -> field_matches sep mu u false -> decides fs sep mu mf ls v ->
    decides fs sep mu mf (l :: ls) v
| decides_origin : forall l ls g u f v, is_rule fs l g u f -> field_matches sep mu u true -> field_matches sep mf f false ->
    decides fs sep mu mf ls v -> decides fs sep mu mf (l :: ls) v
| decides_skip : forall l ls v, (forall g u f, ~ is_rule fs l g u f) -> decides fs sep mu mf ls v -> decides fs sep mu mf (l :: ls) v.

(** The bits of an address: number [i] from the left. *)
Definition addr_bit (b : list Z) (i : nat) : bool := Z.testbit (nth (i / 8) b 0) (7 - Z.of_nat (i mod 8)).
(** Proper bytes. *)
Definition bytes (n : nat) (b : list Z) : Prop := length b = n /\ Forall (fun x => 0 <= x < 256) b.
