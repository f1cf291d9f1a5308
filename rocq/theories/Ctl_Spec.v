(** What a bracketed control expression means, independently of the parser (pam.conf(5)). *)
From Coq Require Import String Ascii List Arith ZArith Bool.
From Verif Require Import Base.
Import ListNotations.
Local Open Scope Z_scope.

Definition blank (s : cstr) : Prop := Forall (fun c => isspace c = true) s.

(** The return-value names in the order of their codes; "default" is number 32. *)
Definition value_names : list string :=
  ["success"; "open_err"; "symbol_err"; "service_err"; "system_err"; "buf_err"; "perm_denied"; "auth_err";
   "cred_insufficient"; "authinfo_unavail"; "user_unknown"; "maxtries"; "new_authtok_reqd"; "acct_expired";
   "session_err"; "cred_unavail"; "cred_expired"; "cred_err"; "no_module_data"; "conv_err"; "authtok_err";
   "authtok_recover_err"; "authtok_lock_busy"; "authtok_disable_aging"; "try_again"; "ignore"; "abort";
   "authtok_expired"; "module_unknown"; "bad_item"; "conv_again"; "incomplete"; "default"]%string.

Definition decimal (s : cstr) : Z := fold_left (fun v c => 10 * v + digit_val c) s 0.

(** Action words and their codes; a number in 1..INT_MAX is a jump. *)
Inductive action_text : cstr -> Z -> Prop :=
| at_ignore : action_text (lit "ignore") 0
| at_ok : action_text (lit "ok") (-1)
| at_done : action_text (lit "done") (-2)
| at_bad : action_text (lit "bad") (-3)
| at_die : action_text (lit "die") (-4)
| at_reset : action_text (lit "reset") (-5)
| at_jump : forall s, s <> [] -> Forall (fun c => isdigit c = true) s -> 1 <= decimal s <= INT_MAX ->
            action_text s (decimal s).

(** The strings that are lists "value=action value=action ...". *)
Inductive ctl : cstr -> list (nat * Z) -> Prop :=
| ctl_end : forall w, blank w -> ctl w []
| ctl_entry : forall w1 name k w2 w3 txt a rest es,
    blank w1 -> nth_error value_names k = Some name -> blank w2 -> blank w3 -> action_text txt a -> ctl rest es ->
    ctl (w1 ++ lit name ++ w2 ++ [c_eq] ++ w3 ++ txt ++ rest) ((k, a) :: es).

(** The action for a return value: the last entry naming it; if none does, the first default;
    if there is none either, bad. *)
Definition chosen (es : list (nat * Z)) (v : nat) : Z :=
  match find (fun e => Nat.eqb (fst e) v) (rev es) with
  | Some (_, a) => a
  | None => match find (fun e => Nat.eqb (fst e) 32) es with
            | Some (_, a) => a
            | None => -3
            end
  end.
