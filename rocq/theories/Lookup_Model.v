(** Model of the searches for users and groups in libpam: pam_modutil_getpwnam and its four copies (getpwuid, getgrnam, getgrgid, getspnam), which differ in the function of
    the C library, the name of the data and the cleanup function, and pam_modutil_getlogin. With the reentrant functions of the C library. *)
From Coq Require Import String Ascii List Arith ZArith Bool.
From Verif Require Import Base Str_Model Data_Model.
Import ListNotations.
Local Open Scope Z_scope.

(** PWD_INITIAL_LENGTH, PWD_ABSURD_PWD_LENGTH, PWD_LENGTH_SHIFT: libpam/pam_modutil_private.h:16-18. *)
Definition INITIAL_LENGTH : Z := 1024.
Definition ABSURD_LENGTH : Z := 262145.
Definition LENGTH_SHIFT : Z := 4.
(** INT_MAX. *)
Definition INT_MAX : nat := Z.to_nat 2147483647.

(** The answer of getpwnam_r: the entry, or errno afterwards (ERANGE or EINTR, or anything else). *)
Inductive answer := Found | Again | Failed.
(** One search. [k_prefix]: what is before the index in the name of the data, without the underscore: "_pammodutil_getpwnam_" and the user, or the number (libpam/pam_modutil_getpwnam.c:54-55,
    libpam/pam_modutil_getpwuid.c:54-55, libpam/pam_modutil_getgrnam.c:54-55, libpam/pam_modutil_getgrgid.c:54-55, libpam/pam_modutil_getspnam.c:54-55). [k_clean]: the cleanup function (65).
    [k_handle]: None if pamh is NULL, otherwise whether the caller is the application. Answers from outside: memory for a buffer of a length (32), the address of the buffer,
    the answer for a number of call and length of buffer (45), memory for the name with an index (54), memory in pam_set_data (64). *)
Record search := mkSearch {
  k_prefix : cstr; k_clean : nat; k_handle : option bool; k_memory : Z -> bool; k_address : Z; k_answer : nat -> Z -> answer; k_name : nat -> bool; k_set : nat -> bool
}.
(** The name with an index, libpam/pam_modutil_getpwnam.c:54-55. *)
Definition data_name (prefix : cstr) (i : nat) : cstr := (prefix ++ "_"%char :: decimal (Z.of_nat i))%list.
(** The kinds of name, lines cited for [search]; a uid or gid is printed as a long. *)
Definition getpwnam_prefix (user : cstr) : cstr := (lit "_pammodutil_getpwnam_" ++ user)%list.
Definition getspnam_prefix (user : cstr) : cstr := (lit "_pammodutil_getspnam_" ++ user)%list.
Definition getgrnam_prefix (group : cstr) : cstr := (lit "_pammodutil_getgrnam_" ++ group)%list.
Definition getpwuid_prefix (uid : Z) : cstr := (lit "_pammodutil_getpwuid_" ++ decimal uid)%list.
Definition getgrgid_prefix (gid : Z) : cstr := (lit "_pammodutil_getgrgid_" ++ decimal gid)%list.

(** What cleanup functions do with module data: nothing here, libpam/pam_modutil_cleanup.c:14-57. *)
Definition no_code (_ : nat) (_ _ : Z) : cprog := CRet.
(** The loop that keeps the result, libpam/pam_modutil_getpwnam.c:53-72: [n] more indices from [i] on. The result: kept or not, the data, and how many names were tried.
    pam_set_data is only called if pam_get_data has failed. *)
Fixpoint register (K : search) (from_app : bool) (n i : nat) (l : list entry) (log : list event) (tried : nat) : res (bool * list entry * list event * nat) :=
  match n with
  | O => Ok (false, l, log, tried)
  | S n =>
      if negb (k_name K i) then Ok (false, l, log, tried)
      else
        let name := data_name (k_prefix K) i in
        if fst (get_data from_app (Some name) l) =? PAM_SUCCESS then register K from_app n (S i) l log (S tried)
        else bind (set_data no_code 1 from_app (negb (k_set K i)) (Some name) (k_address K) (Some (k_clean K)) l log) (fun '(status, l, log) =>
             if status =? PAM_SUCCESS then Ok (true, l, log, S tried) else register K from_app n (S i) l log (S tried))
  end.
(** The loop over the lengths of the buffer, libpam/pam_modutil_getpwnam.c:27-94; [fuel] bounds the number of rounds (64 shifts empty a length). The result: the address or NULL. *)
Fixpoint find (K : search) (fuel call : nat) (len : Z) (l : list entry) (log : list event) : res (option Z * list entry * list event * nat) :=
  match fuel with
  | O => OutOfFuel
  | S fuel =>
      if negb (k_memory K len) then Ok (None, l, log, 0%nat)
      else match k_answer K call len with
      | Found =>
          match k_handle K with
          | None => Ok (Some (k_address K), l, log, 0%nat)
          | Some from_app => bind (register K from_app INT_MAX 0 l log 0) (fun '(kept, l, log, tried) => Ok (if kept : bool then Some (k_address K) else None, l, log, tried))
          end
      | Failed => Ok (None, l, log, 0%nat)
      | Again =>
          let len := Z.shiftl len LENGTH_SHIFT in
          if len <? ABSURD_LENGTH then find K fuel (S call) len l log else Ok (None, l, log, 0%nat)
      end
  end.
(** pam_modutil_getpwnam and its copies, libpam/pam_modutil_getpwnam.c:19-100. *)
Definition lookup (K : search) (l : list entry) (log : list event) : res (option Z * list entry * list event * nat) := find K 64 0 INITIAL_LENGTH l log.

(** pam_modutil_getlogin, libpam/pam_modutil_getlogin.c:16-46: [login] is the address of a copy of what getlogin returns (None: no name, 30, or no memory, 35), [memory] that in pam_set_data. *)
Definition getlogin (login : option Z) (memory : bool) (from_app : bool) (l : list entry) (log : list event) : res (option Z * list entry * list event) :=
  match get_data from_app (Some (lit "_pammodutil_getlogin")) l with
  | (0, Some p) => Ok (Some p, l, log)
  | _ =>
      match login with
      | None => Ok (None, l, log)
      | Some p =>
          bind (set_data no_code 1 from_app (negb memory) (Some (lit "_pammodutil_getlogin")) p (Some 0%nat) l log) (fun '(status, l, log) =>
          Ok (if status =? PAM_SUCCESS then Some p else None, l, log))
      end
  end.
