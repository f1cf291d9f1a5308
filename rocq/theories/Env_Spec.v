(** The environment as a map from names to values. *)
From Coq Require Import String Ascii List Arith ZArith Bool.
From Verif Require Import Base Env_Model.
Import ListNotations.
Local Open Scope Z_scope.

(** Variable names: not empty, without '='. *)
Definition name_ok (n : cstr) : Prop := n <> [] /\ ~ In c_eq n.

(** What a string asks pam_putenv for. *)
Inductive asks : cstr -> option (cstr * option cstr) -> Prop :=
| ask_set : forall n v, name_ok n -> asks (n ++ c_eq :: v) (Some (n, Some v))
| ask_delete : forall n, name_ok n -> asks n (Some (n, None))
| ask_empty : asks [] None
| ask_noname : forall v, asks (c_eq :: v) None.

Definition envmap := cstr -> option cstr.
Definition same_but (n : cstr) (m m' : envmap) : Prop := forall k, k <> n -> m' k = m k.

(** The effect of a call: code and new map.  [nomem]: some allocation failed. *)
Inductive put_effect (nomem : bool) (m : envmap) (nv : cstr) : Z -> envmap -> Prop :=
| put_bad : forall m', asks nv None -> (forall k, m' k = m k) -> put_effect nomem m nv 29 m'
| put_set : forall n v m', asks nv (Some (n, Some v)) -> m' n = Some v -> same_but n m m' -> put_effect nomem m nv 0 m'
| put_delete : forall n m', asks nv (Some (n, None)) -> m n <> None -> m' n = None -> same_but n m m' -> put_effect nomem m nv 0 m'
| put_missing : forall n m', asks nv (Some (n, None)) -> m n = None -> (forall k, m' k = m k) -> put_effect nomem m nv 29 m'
| put_nomem : forall n v m', nomem = true -> asks nv (Some (n, Some v)) -> m' n = m n \/ m' n = None -> same_but n m m' ->
    put_effect nomem m nv 5 m'.

(** What names have according to the list of strings put, latest first. *)
Fixpoint after (puts : list cstr) (n : cstr) : option cstr :=
  match puts with
  | [] => None
  | p :: ps => if streq p n then None
               else if is_prefix (n ++ [c_eq]) p then Some (skipn (S (length n)) p)
               else after ps n
  end.
