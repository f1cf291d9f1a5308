(** Model of pam_loginuid: modules/pam_loginuid/pam_loginuid.c. Only logging is left out. *)
From Coq Require Import String Ascii List Arith ZArith Bool.
From Verif Require Import Base Str_Model.
Import ListNotations.
Local Open Scope Z_scope.

(** open(2) of /proc/self/loginuid, modules/pam_loginuid/pam_loginuid.c:71-81: not there (ENOENT), not possible, or the contents. *)
Inductive opened := NotThere | NotPossible | Text (t : list ascii).
(** Answers from outside, modules/pam_loginuid/pam_loginuid.c: pam_get_user (204), the uid of a user (210); the contents of /proc/self/uid_map, None when
    it cannot be opened and empty when it cannot be read (63-69); /proc/self/loginuid; whether it can be read (84), sought and truncated (89), and how
    many bytes can be written (90). *)
Record env := mkEnv { e_user : option cstr; e_uid : cstr -> option Z; e_map : option (list ascii); e_file : opened; e_read : bool; e_seek : bool; e_trunc : bool; e_room : nat }.
(** host_uid_map, modules/pam_loginuid/pam_loginuid.c:57, with its zero. *)
Definition host_uid_map : list ascii := (lit "         0          0 4294967295" ++ [c_nl; NUL])%list.
(** The result before /proc/self/loginuid is opened, modules/pam_loginuid/pam_loginuid.c:55 and 63-69. At most as many bytes as host_uid_map has are read;
    strncmp of that many bytes is equality, since the only zero of host_uid_map is its last byte. *)
Definition failure (m : option (list ascii)) : Z :=
  match m with
  | None => PAM_SESSION_ERR
  | Some t =>
      let got := firstn (length host_uid_map) t in
      match got with
      | [] => PAM_IGNORE
      | _ => if streq got (firstn (length got) host_uid_map) then PAM_SESSION_ERR else PAM_IGNORE
      end
  end.
(** set_loginuid, modules/pam_loginuid/pam_loginuid.c:53-101: the result and the contents of the file; 24 bytes are read. The file is one whose contents
    are what was last written (simplification). *)
Definition set_loginuid (E : env) (uid : Z) : Z * opened :=
  let rc := failure (e_map E) in
  match e_file E with
  | NotThere => (PAM_IGNORE, NotThere)
  | NotPossible => (rc, NotPossible)
  | Text t =>
      let s := decimal uid in
      if e_read E && streq (firstn 24 t) s then (PAM_SUCCESS, Text t)
      else if negb (e_seek E) then (rc, Text t)
      else if negb (e_trunc E) then (rc, Text t)
      else (if (length s <=? e_room E)%nat then PAM_SUCCESS else rc, Text (firstn (e_room E) s))
  end.

(** What audit_get_reply brings, modules/pam_loginuid/pam_loginuid.c:141-163: nothing, the end or an error, the status with the pid of the daemon,
    something else. *)
Inductive reply := Nothing | Over | Status (pid : Z) | Else.
(** The audit system, modules/pam_loginuid/pam_loginuid.c:110-180: whether audit_open succeeds (114); if not, whether errno says that the kernel has no
    auditing (120-121); what audit_request_status returns (125); the replies (141); getuid (171). *)
Record audit := mkAudit { a_open : bool; a_absent : bool; a_request : Z; a_reply : nat -> reply; a_uid : Z }.
(** The loop of modules/pam_loginuid/pam_loginuid.c:130-163: the pid of the daemon, if told. *)
Fixpoint await (A : audit) (i n : nat) : option Z :=
  match n with
  | O => None
  | S n =>
      match a_reply A i with
      | Over => None
      | Status pid => Some pid
      | Nothing | Else => await A (S i) n
      end
  end.
(** ECONNREFUSED and EPERM, from asm-generic/errno.h. *)
Definition ECONNREFUSED : Z := 111.
(** See above. *)
Definition EPERM : Z := 1.
(** check_auditd, modules/pam_loginuid/pam_loginuid.c:110-181. *)
Definition check_auditd (A : audit) : Z :=
  if negb (a_open A) then (if a_absent A then PAM_SUCCESS else PAM_SESSION_ERR)
  else
    match (if 0 <? a_request A then await A 0 30 else None) with
    | Some pid => if pid =? 0 then PAM_SESSION_ERR else PAM_SUCCESS
    | None =>
        if a_request A =? - ECONNREFUSED then PAM_SUCCESS
        else if (a_request A =? - EPERM) && negb (a_uid A =? 0) then PAM_SUCCESS
        else PAM_SESSION_ERR
    end.

(** _pam_loginuid, modules/pam_loginuid/pam_loginuid.c:187-241, which is pam_sm_acct_mgmt and pam_sm_open_session; [lib] is HAVE_LIBAUDIT.
    pam_sm_close_session always succeeds (258-263). *)
Definition pam_loginuid (lib : bool) (E : env) (A : audit) (args : list cstr) : Z * opened :=
  match e_user E with
  | None => (PAM_SESSION_ERR, e_file E)
  | Some u =>
      match e_uid E u with
      | None => (PAM_SESSION_ERR, e_file E)
      | Some uid =>
          let '(ret, f) := set_loginuid E uid in
          if (ret =? PAM_SUCCESS) || (ret =? PAM_IGNORE) then
            if lib && existsb (streq (lit "require_auditd")) args then
              let rc := check_auditd A in (if negb (rc =? PAM_SUCCESS) then rc else ret, f)
            else (ret, f)
          else (ret, f)
      end
  end.
