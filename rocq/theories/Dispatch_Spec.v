(** Independent meaning of a PAM stack with substacks, as documented in pam.conf(5)
    (doc/man/pam.conf-syntax.xml): a recursive evaluator on trees.  It knows nothing about
    levels, positions, saved arrays or skipping loops. *)
From Coq Require Import List Arith ZArith Bool.
From Verif Require Import Base Dispatch_Model.
Import ListNotations.
Local Open Scope Z_scope.

(** A stack is a list of items: a module line, or a substack. *)
Inductive item :=
| Mod (h : handler)
| Sub (marker : handler) (body : list item).

(** The collected opinion of a stack so far. *)
Inductive verdict := Undecided | Good (code : Z) | Bad (code : Z).

(** The value handed to the application. *)
Definition outcome (v : verdict) : Z :=
  match v with
  | Undecided => PAM_PERM_DENIED
  | Good c => c
  | Bad c => if c =? PAM_SUCCESS then PAM_PERM_DENIED else c
  end.

(** "ok": counts when nothing was decided yet, or overrides an earlier plain success. *)
Definition count_ok (v : verdict) (r : Z) : verdict :=
  match v with
  | Undecided => Good r
  | Good 0 => Good r
  | _ => v
  end.

(** "bad": the first failure is remembered. *)
Definition count_bad (v : verdict) (r : Z) : verdict :=
  match v with
  | Bad c => Bad c
  | _ => Bad (if r =? PAM_IGNORE then PAM_PERM_DENIED else r)
  end.

Definition is_good (v : verdict) : bool := match v with Good _ => true | _ => false end.

(** What an item asks of the stack it stands in. *)
Inductive ask (W : Type) :=
| Continue (v : verdict) (w : W) (c : list Z)
| Jump (n : Z) (v : verdict) (w : W) (c : list Z)     (* skip the next n items *)
| Leave (v : verdict) (w : W) (c : list Z)            (* end this (sub)stack *)
| Restore (w : W) (c : list Z)                        (* verdict as on entry of this (sub)stack *)
| Suspend (w : W) (c : list Z).                       (* PAM_INCOMPLETE *)
Arguments Continue {W}. Arguments Jump {W}. Arguments Leave {W}. Arguments Restore {W}.
Arguments Suspend {W}.

Inductive sout (W : Type) :=
| SDone (v : verdict) (w : W) (c : list Z)
| SSuspended (w : W) (c : list Z).
Arguments SDone {W}. Arguments SSuspended {W}.

Section Spec.
Variable W : Type.
Variable call : handler -> Z -> W -> W * Z.
Variable flags : Z.
(** [frozen_chain]: pam_setcred / pam_close_session, which follow the return values recorded
    by pam_authenticate / pam_open_session. *)
Variable frozen_chain : bool.

(** Return value of a module line. *)
Definition result (h : handler) (w : W) : W * Z :=
  match h_type h with
  | HT_MUST_FAIL => (w, PAM_PERM_DENIED)
  | _ => match h_func h with
         | None => (w, PAM_MODULE_UNKNOWN)
         | Some _ => call h flags w
         end
  end.

Fixpoint record (c : list Z) (i : nat) (x : Z) : list Z :=
  match c, i with
  | [], _ => []
  | _ :: t, O => x :: t
  | a :: t, S j => a :: record t j x
  end.

(** One module line. *)
Definition module_line (h : handler) (v : verdict) (w : W) (c : list Z) : ask W :=
  let (w', r) := result h w in
  if r =? PAM_INCOMPLETE then Suspend w' c
  else
    let recorded := nth (h_cellp h) c (-1) in
    let key := if frozen_chain then (if recorded =? -1 then r else recorded) else r in
    let c' := if frozen_chain then c else record c (h_cell h) r in
    if (key <? 0) || (31 <? key) then Continue (count_bad v PAM_PERM_DENIED) w' c'
    else
      (* a frozen chain ignores a module that now says PAM_IGNORE but did not before *)
      let ok := if (r =? PAM_IGNORE) && negb (key =? r) then v else count_ok v r in
      match nth (Z.to_nat key) (h_actions h) 0 with
      | ACT_IGNORE => Continue v w' c'
      | ACT_OK => Continue ok w' c'
      | ACT_DONE => if is_good ok then Leave ok w' c' else Continue ok w' c'
      | ACT_BAD => Continue (count_bad v r) w' c'
      | ACT_DIE => Leave (count_bad v r) w' c'
      | ACT_RESET => Restore w' c'
      | n => if 0 <? n then Jump n (if frozen_chain then ok else v) w' c'
             else Continue (Bad PAM_PERM_DENIED) w' c'
      end.

(** A (sub)stack: [entry] is the verdict it was entered with, [skip] the number of items a
    jump still has to pass.  A jump beyond the end is a failure. *)
Definition walk (run_item : item -> verdict -> W -> list Z -> ask W) (entry : verdict) :=
  fix walk (skip : Z) (l : list item) (v : verdict) (w : W) (c : list Z) : sout W :=
    match l with
    | [] => SDone (if 0 <? skip then Bad PAM_PERM_DENIED else v) w c
    | x :: t =>
        if 0 <? skip then walk (skip - 1) t v w c
        else match run_item x v w c with
             | Continue v' w' c' => walk 0 t v' w' c'
             | Jump n v' w' c' => walk n t v' w' c'
             | Leave v' w' c' => SDone v' w' c'
             | Restore w' c' => walk 0 t entry w' c'
             | Suspend w' c' => SSuspended w' c'
             end
    end.

(** A substack runs as one item of its parent. *)
Fixpoint run_item (x : item) (v : verdict) (w : W) (c : list Z) : ask W :=
  match x with
  | Mod h => module_line h v w c
  | Sub _ body =>
      match walk run_item v 0 body v w c with
      | SDone v' w' c' => Continue v' w' c'
      | SSuspended w' c' => Suspend w' c'
      end
  end.

(** The whole stack. *)
Definition run_stack (l : list item) (w : W) (c : list Z) : sout W :=
  walk run_item Undecided 0 l Undecided w c.

End Spec.
Arguments run_stack {W}. Arguments run_item {W}. Arguments walk {W}. Arguments module_line {W}.
Arguments result {W}.

(** How a tree is written as a flat list of handlers: every substack is announced by a marker
    line and its contents stand one level deeper. *)
Fixpoint flat_item (x : item) : list handler :=
  match x with
  | Mod h => [h]
  | Sub m body => m :: flat_map flat_item body
  end.
Definition flat (l : list item) : list handler := flat_map flat_item l.

(** [placed ncells lvl x]: the item stands at level [lvl]; tables are complete and cached-value cells
    exist. *)
Definition line_ok (ncells lvl : nat) (h : handler) : Prop :=
  h_level h = lvl /\ h_type h <> HT_SUBSTACK /\ length (h_actions h) = 32%nat /\
  (h_cell h < ncells)%nat /\ (h_cellp h < ncells)%nat.

Inductive placed (ncells : nat) : nat -> item -> Prop :=
| placed_mod : forall lvl h, line_ok ncells lvl h -> placed ncells lvl (Mod h)
| placed_sub : forall lvl m body,
    h_level m = lvl -> h_type m = HT_SUBSTACK -> (body = [] \/ (S lvl < SUBSTACK_MAX)%nat) ->
    Forall (placed ncells (S lvl)) body -> placed ncells lvl (Sub m body).
