(** Model of libpam/pam_data.c: data kept for modules under names. *)
From Coq Require Import String Ascii List Arith ZArith Bool.
From Verif Require Import Base.
Import ListNotations.
Local Open Scope Z_scope.

(** PAM_DATA_REPLACE, libpam/include/security/pam_modules.h:76. *)
Definition DATA_REPLACE : Z := 536870912.

(** struct pam_data, libpam/pam_private.h:261-266; the [next] pointer is the list tail.  The stored
    pointer is an abstract number (0 = NULL), the cleanup function an identifier (None = NULL). *)
Record entry := mkE { d_name : cstr; d_data : Z; d_cleanup : option nat }.

(** What a cleanup function does with the module data: it may call pam_set_data and pam_get_data and
    look at their results (for pam_get_data the code and what the destination holds afterwards).
    Simplification: its other actions do not concern the data list. *)
Inductive cprog :=
| CRet
| CSet (name : option cstr) (data : Z) (cleanup : option nat) (k : Z -> cprog)
| CGet (name : option cstr) (k : Z * option Z -> cprog).

(** Observed events: a cleanup function is called; a cleanup function asks for data and gets the answer. *)
Inductive event := ECleanup (fn : nat) (data status : Z) | EGot (name : option cstr) (answer : Z * option Z).

(** _pam_locate_data, libpam/pam_data.c:39-58. *)
Fixpoint locate (name : cstr) (l : list entry) : option entry :=
  match l with [] => None | e :: t => if streq (d_name e) name then Some e else locate name t end.

(** libpam/pam_data.c:108-109, for the entry found by its name. *)
Fixpoint overwrite (name : cstr) (data : Z) (cleanup : option nat) (l : list entry) : list entry :=
  match l with
  | [] => []
  | e :: t => if streq (d_name e) name then mkE (d_name e) data cleanup :: t else e :: overwrite name data cleanup t
  end.

(** pam_get_data, libpam/pam_data.c:114-143, with pamh and datap not NULL; None: *datap is not written. *)
Definition get_data (from_app : bool) (name : option cstr) (l : list entry) : Z * option Z :=
  if from_app then (PAM_SYSTEM_ERR, None)
  else match name with
       | None => (PAM_SYSTEM_ERR, None)
       | Some n => match locate n l with
                   | Some e => (PAM_SUCCESS, Some (d_data e))
                   | None => (PAM_NO_MODULE_DATA, None)
                   end
       end.

Section Data.
(** The code of the cleanup functions: cleanup(pamh, data, error_status). *)
Variable code : nat -> Z -> Z -> cprog.

(** pam_set_data, libpam/pam_data.c:60-112, and the run of a cleanup function.  [oom]: an allocation
    of the outer call fails (allocations of calls made by cleanup functions succeed).  The fuel bounds the
    depth of the C stack; running out of it is unbounded recursion. *)
Fixpoint set_data (fuel : nat) (from_app oom : bool) (name : option cstr) (data : Z) (cleanup : option nat)
  (l : list entry) (log : list event) : res (Z * list entry * list event) :=
  match fuel with
  | O => OutOfFuel
  | S f =>
    if from_app then Ok (PAM_SYSTEM_ERR, l, log)
    else match name with
    | None => Ok (PAM_SYSTEM_ERR, l, log)
    | Some n =>
        match locate n l with
        | Some e =>
            bind (match d_cleanup e with
                  | None => Ok (l, log)
                  | Some c =>
                      (fix run (p : cprog) (l : list entry) (log : list event) : res (list entry * list event) :=
                         match p with
                         | CRet => Ok (l, log)
                         | CSet n' d' c' k => bind (set_data f from_app false n' d' c' l log) (fun '(rv, l, log) => run (k rv) l log)
                         | CGet n' k => let a := get_data from_app n' l in run (k a) l (log ++ [EGot n' a])
                         end) (code c (d_data e) (DATA_REPLACE + PAM_SUCCESS)) l (log ++ [ECleanup c (d_data e) (DATA_REPLACE + PAM_SUCCESS)])
                  end) (fun '(l, log) => Ok (PAM_SUCCESS, overwrite n data cleanup l, log))
        | None =>
            if oom then Ok (PAM_BUF_ERR, l, log)
            else Ok (PAM_SUCCESS, mkE n data cleanup :: l, log)
        end
    end
  end.

(** A cleanup function run on its own, see [set_data]. *)
Fixpoint run_cleanup (fuel : nat) (from_app : bool) (p : cprog) (l : list entry) (log : list event) : res (list entry * list event) :=
  match p with
  | CRet => Ok (l, log)
  | CSet n' d' c' k => bind (set_data fuel from_app false n' d' c' l log) (fun '(rv, l, log) => run_cleanup fuel from_app (k rv) l log)
  | CGet n' k => let a := get_data from_app n' l in run_cleanup fuel from_app (k a) l (log ++ [EGot n' a])
  end.

(** _pam_free_data, libpam/pam_data.c:145-164, called from pam_end (libpam/pam_end.c:12-32), which only an
    application can do.  pamh->data is not changed while the entries are freed, so [l] below still has the
    freed ones: it is only looked at by calls that are refused (from_app). *)
Fixpoint free_entries (rest l : list entry) (status : Z) (log : list event) : res (list event) :=
  match rest with
  | [] => Ok log
  | e :: t =>
      bind (match d_cleanup e with
            | None => Ok (l, log)
            | Some c => run_cleanup 1 true (code c (d_data e) status) l (log ++ [ECleanup c (d_data e) status])
            end) (fun '(l, log) => free_entries t l status log)
  end.
(** _pam_free_data as a whole: the walk starts with the whole list (lines cited above). *)
Definition free_data (l : list entry) (status : Z) (log : list event) : res (list event) := free_entries l l status log.
End Data.
