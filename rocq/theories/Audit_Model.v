(** Model of the audit trail of libpam, libpam/pam_audit.c with HAVE_LIBAUDIT: records, their text, results, and what is written at the end of a transaction. Results of calls are also in
    Dispatch_Model.auditlog; here is what is recorded. The system log is left out except for failures of audit_log_acct_message. *)
From Coq Require Import String Ascii List ZArith Bool.
From Verif Require Import Base.
Import ListNotations.
Local Open Scope Z_scope.

(** struct handler, libpam/pam_private.h:53-66: the name of the module and the grantor flag; other members are left out. *)
Record handler := mkH { h_name : cstr; h_grantor : bool }.
(** The types of record, libpam/pam_audit.c:144-183 (constants of libaudit); [Own n]: one given by a module (221). *)
Inductive kind := UserAuth | UserStart | UserEnd | UserAcct | UserChauthtok | CredAcq | CredRefr | CredDisp | UserErr | Own (n : Z).
(** The arguments of audit_log_acct_message, libpam/pam_audit.c:42-44: type, message, name, host, tty, result. *)
Record record := mkRec { r_kind : kind; r_text : cstr; r_user : cstr; r_host : option cstr; r_tty : option cstr; r_ok : bool }.
(** What audit_open gives, libpam/pam_audit.c:71-84: a descriptor, an error that means that there is no audit in the kernel, another error. *)
Inductive opening := Opens | Absent | Broken.
(** Answers from outside in one call: audit_open; memory for the list (109), for the text (41); the result of audit_log_acct_message (42). *)
Record env := mkEnv { e_open : opening; e_list : bool; e_text : bool; e_rc : Z }.
(** The items of the handle that are used, libpam/pam_audit.c:43-44. *)
Record items := mkI { i_user : option cstr; i_host : option cstr; i_tty : option cstr }.
(** The state: PAMAUDIT_LOGGED (54), old_errno (31), the records passed on with the results, and the errors that were logged (61), oldest first. *)
Record state := mkSt { logged : bool; old_errno : Z; sent : list (record * Z); alerts : list Z }.
(** The state of a process with a new handle, libpam/pam_start.c:122 and libpam/pam_audit.c:31. *)
Definition start : state := mkSt false (-1) [] [].
(** EPERM, ENOMEM: Linux. *)
Definition EPERM : Z := 1.
Definition ENOMEM : Z := 12.

(** _pam_audit_writelog, libpam/pam_audit.c:27-65. *)
Definition writelog (E : env) (It : items) (k : kind) (message : cstr) (grantors : option cstr) (retval : Z) (s : state) : Z * state :=
  let text := (lit "PAM:" ++ message ++ match grantors with Some g => lit " grantors=" ++ g | None => [] end)%list in
  let user := match i_user It with Some u => if retval =? PAM_USER_UNKNOWN then lit "?" else u | None => lit "?" end in
  let (rc, more) := if e_text E then (e_rc E, [(mkRec k text user (i_host It) (i_tty It) (retval =? PAM_SUCCESS), e_rc E)]) else (- ENOMEM, []) in
  let sent' := (sent s ++ more)%list in
  if rc <? 0 then
    if rc =? - EPERM then (0, mkSt true (old_errno s) sent' (alerts s))
    else if negb (- rc =? old_errno s) then (rc, mkSt true (- rc) sent' (alerts s ++ [- rc])%list)
    else (rc, mkSt true (old_errno s) sent' (alerts s))
  else (rc, mkSt true (old_errno s) sent' (alerts s)).

(** The first loop of _pam_list_grantors, libpam/pam_audit.c:99-103: the size of the list. *)
Fixpoint list_size (hs : list handler) : nat :=
  match hs with [] => 0 | h :: t => (if h_grantor h then length (h_name h) + 1 else 0) + list_size t end%nat.
(** The second loop, libpam/pam_audit.c:114-124; [first]: p is NULL. *)
Fixpoint list_text (first : bool) (hs : list handler) : cstr :=
  match hs with
  | [] => []
  | h :: t => if h_grantor h then ((if first then [] else lit ",") ++ h_name h ++ list_text false t)%list else list_text first t
  end.
(** _pam_list_grantors, libpam/pam_audit.c:89-128: failed or not, and the list. *)
Definition list_grantors (E : env) (hs : list handler) (retval : Z) : bool * option cstr :=
  if retval =? PAM_SUCCESS then
    match list_size hs with
    | O => (true, None)
    | S _ => if e_list E then (true, Some (list_text true hs)) else (false, None)
    end
  else (true, None).

(** The switch over the action, libpam/pam_audit.c:144-185: message, type, and whether the action is known; the numbers are those of libpam/pam_private.h:187-197, flags those of
    libpam/include/security/_pam_types.h:108-117. *)
Definition on (flags bit : Z) : bool := negb (Z.land flags bit =? 0).
Definition action_kind (action flags : Z) : cstr * kind * bool :=
  if action =? 1 then (lit "authentication", UserAuth, true)
  else if action =? 4 then (lit "session_open", UserStart, true)
  else if action =? 5 then (lit "session_close", UserEnd, true)
  else if action =? 3 then (lit "accounting", UserAcct, true)
  else if action =? 6 then (lit "chauthtok", UserChauthtok, true)
  else if action =? 2 then
    (lit "setcred", if on flags 2 then CredAcq else if on flags 8 || on flags 16 then CredRefr else if on flags 4 then CredDisp else UserErr, true)
  else if action =? -2 then (lit "bad_ident", UserErr, true)
  else (lit "UNKNOWN", UserErr, false).
(** _pam_auditlog, libpam/pam_audit.c:130-201. *)
Definition auditlog (E : env) (It : items) (action retval flags : Z) (hs : list handler) (s : state) : Z * state :=
  match e_open E with
  | Broken => (PAM_SYSTEM_ERR, s)
  | Absent => (retval, s)
  | Opens =>
      let '(message, k, known) := action_kind action flags in
      let retval := if known then retval else PAM_SYSTEM_ERR in
      let (fine, grantors) := list_grantors E hs retval in
      let retval := if fine then retval else PAM_SYSTEM_ERR in
      let (rc, s) := writelog E It k message (Some match grantors with Some g => g | None => lit "?" end) retval s in
      (if rc <? 0 then PAM_SYSTEM_ERR else retval, s)
  end.
(** The step in _pam_dispatch, libpam/pam_dispatch.c:441-445; PAM_UPDATE_AUTHTOK is 0x2000. *)
Definition dispatched (E : env) (It : items) (choice retval flags : Z) (hs : list handler) (s : state) : Z * state :=
  if negb (choice =? 6) || on flags 8192 || negb (retval =? PAM_SUCCESS) then auditlog E It choice retval flags hs s else (retval, s).
(** _pam_audit_end, libpam/pam_audit.c:203-215. *)
Definition audit_end (E : env) (It : items) (s : state) : state :=
  if logged s then s else snd (auditlog E It (-2) PAM_USER_UNKNOWN 0 [] s).
(** pam_modutil_audit_write, libpam/pam_audit.c:217-235. *)
Definition audit_write (E : env) (It : items) (n : Z) (message : cstr) (retval : Z) (s : state) : Z * state :=
  match e_open E with
  | Broken => (PAM_SYSTEM_ERR, s)
  | Absent => (retval, s)
  | Opens => let (rc, s) := writelog E It (Own n) message None retval s in (if rc <? 0 then PAM_SYSTEM_ERR else PAM_SUCCESS, s)
  end.
(** What happens on one handle between pam_start and pam_end: calls of the application with the results of the modules, and records of modules. *)
Inductive step := Call (E : env) (It : items) (choice retval flags : Z) (hs : list handler) | Note (E : env) (It : items) (n : Z) (message : cstr) (retval : Z).
(** One of them, libpam/pam_dispatch.c:441-445 and libpam/pam_audit.c:217-235. *)
Definition act (s : state) (x : step) : state :=
  match x with Call E It choice retval flags hs => snd (dispatched E It choice retval flags hs s) | Note E It n message retval => snd (audit_write E It n message retval s) end.
(** All of them in order, libpam/pam_dispatch.c:441-445 and libpam/pam_audit.c:217-235, and then pam_end (libpam/pam_end.c:25-27). *)
Definition transaction (xs : list step) (E : env) (It : items) : state := audit_end E It (fold_left act xs start).
