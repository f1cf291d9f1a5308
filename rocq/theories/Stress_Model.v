(** Model of pam_stress: options, passwords, results and the change of a password. Messages to the system log are left out. *)
From Coq Require Import String Ascii List ZArith Bool.
From Verif Require Import Base Str_Model.
Import ListNotations.
Local Open Scope Z_scope.

(** The bits of ctrl, modules/pam_stress/pam_stress.c:30-42. *)
Definition ST_DEBUG : Z := 1.
Definition ST_NO_WARN : Z := 2.
Definition ST_USE_PASS1 : Z := 4.
Definition ST_TRY_PASS1 : Z := 8.
Definition ST_ROOTOK : Z := 16.
Definition ST_EXPIRED : Z := 32.
Definition ST_FAIL_1 : Z := 64.
Definition ST_FAIL_2 : Z := 128.
Definition ST_PRELIM : Z := 256.
Definition ST_REQUIRE_PWD : Z := 512.
(** The flags, libpam/include/security/_pam_types.h:97, 103, 124 and libpam/include/security/pam_modules.h:60, 64. *)
Definition F_SILENT : Z := 32768.
Definition F_DISALLOW_NULL : Z := 1.
Definition F_CHANGE_EXPIRED : Z := 32.
Definition F_PRELIM : Z := 16384.
Definition F_UPDATE : Z := 8192.
(** A test of bits. *)
Definition on (v bits : Z) : bool := negb (Z.land v bits =? 0).

(** _pam_parse, modules/pam_stress/pam_stress.c:62-105: unknown options are only logged. *)
Definition option_bit (a : cstr) : Z :=
  if streq a (lit "debug") then ST_DEBUG
  else if streq a (lit "no_warn") then ST_NO_WARN
  else if streq a (lit "use_first_pass") then ST_USE_PASS1
  else if streq a (lit "try_first_pass") then ST_TRY_PASS1
  else if streq a (lit "rootok") then ST_ROOTOK
  else if streq a (lit "expired") then ST_EXPIRED
  else if streq a (lit "fail_1") then ST_FAIL_1
  else if streq a (lit "fail_2") then ST_FAIL_2
  else if streq a (lit "prelim") then ST_PRELIM
  else if streq a (lit "required") then ST_REQUIRE_PWD
  else 0.
Definition parse (args : list cstr) : Z := fold_left (fun ctrl a => Z.lor ctrl (option_bit a)) args 0.

(** Styles of messages, libpam/include/security/_pam_types.h:229-232. *)
Inductive style := EchoOff | ErrorMsg | TextInfo.
Definition msg : Type := style * cstr.
(** What the module sees and changes in the handle: the two tokens, the data "stress_new_pwd", and which conversations there were. *)
Record state := mkSt { authtok : option cstr; oldauthtok : option cstr; marker : option cstr; asked : list (list msg) }.
Definition set_tok v s := mkSt v (oldauthtok s) (marker s) (asked s).
Definition set_old v s := mkSt (authtok s) v (marker s) (asked s).
(** Answers from outside: the result of pam_get_user (220) and PAM_USER and PAM_SERVICE; whether there is a conversation function; what it answers, given those of before and the messages:
    the result and the responses (None: NULL); getuid() == 0; memory for copies of passwords (144), of "yes" (301) and for the text (458), in pam_set_item (number of the call: 0 at line 243,
    1 at 435, 2 at 515, 3 at 518); the result of pam_set_data (304). *)
Record env := mkEnv {
  e_getuser : Z; e_user : option cstr; e_service : option cstr; e_conv : bool; e_answer : list (list msg) -> list msg -> Z * option (list (option cstr));
  e_root : bool; e_dup : bool; e_yes : bool; e_text : bool; e_set : nat -> bool; e_data : Z
}.

(** pam_set_item for PAM_AUTHTOK or PAM_OLDAUTHTOK by a module, libpam/pam_item.c:83-115: the old token is overwritten even if there is no memory for the new one. *)
Definition put (memory : bool) (new old : option cstr) : Z * option cstr :=
  match new with
  | None => (PAM_SUCCESS, None)
  | Some t => if memory then (PAM_SUCCESS, Some t) else (PAM_BUF_ERR, match old with Some _ => Some [] | None => None end)
  end.
(** converse, modules/pam_stress/pam_stress.c:107-130. *)
Definition converse (E : env) (msgs : list msg) (s : state) : Z * option (list (option cstr)) * state :=
  if e_conv E then let (rc, r) := e_answer E (asked s) msgs in (rc, r, mkSt (authtok s) (oldauthtok s) (marker s) (asked s ++ [msgs]))
  else (PAM_BAD_ITEM, None, s).
(** The prompt for a password, modules/pam_stress/pam_stress.c:157-160. *)
Definition prompt : list msg := [(EchoOff, lit "STRESS Password: ")].
(** stress_get_password, modules/pam_stress/pam_stress.c:134-195; the first response is read (167), so an array without any is undefined behaviour. *)
Definition get_password (E : env) (flags ctrl : Z) (s : state) : res (Z * option cstr * state) :=
  match (if on ctrl (Z.lor ST_TRY_PASS1 ST_USE_PASS1) then authtok s else None) with
  | Some p => Ok (if e_dup E then (PAM_SUCCESS, Some p, s) else (PAM_BUF_ERR, None, s))
  | None =>
      if on ctrl ST_USE_PASS1 then Ok (PAM_PERM_DENIED, None, s)
      else
        let '(rc, r, s) := converse E prompt s in
        if negb (rc =? PAM_SUCCESS) then Ok (rc, None, s)
        else match r with
        | None => Ok (PAM_CONV_ERR, None, s)
        | Some [] => UB
        | Some (p :: _) =>
            if on flags F_DISALLOW_NULL && match p with None => true | _ => false end then Ok (PAM_AUTH_ERR, None, s)
            else Ok (PAM_SUCCESS, p, s)
        end
  end.
(** pam_sm_authenticate, modules/pam_stress/pam_stress.c:205-269. *)
Definition authenticate (E : env) (flags : Z) (args : list cstr) (s : state) : res (Z * state) :=
  let ctrl := parse args in
  if negb (e_getuser E =? PAM_SUCCESS) then Ok (e_getuser E, s)
  else bind (get_password E flags ctrl s) (fun '(rc, pass, s) =>
    if negb (rc =? PAM_SUCCESS) then Ok (rc, s)
    else
      let (rc, tok) := put (e_set E 0) pass (authtok s) in
      let s := set_tok tok s in
      if negb (rc =? PAM_SUCCESS) then Ok (rc, s)
      else Ok (if on ctrl ST_FAIL_1 then PAM_PERM_DENIED else PAM_SUCCESS, s)).
(** pam_sm_setcred, modules/pam_stress/pam_stress.c:271-284. *)
Definition setcred (args : list cstr) : Z := if on (parse args) ST_FAIL_2 then PAM_CRED_ERR else PAM_SUCCESS.
(** pam_sm_acct_mgmt, modules/pam_stress/pam_stress.c:288-320; data of before with the name are replaced. *)
Definition acct_mgmt (E : env) (args : list cstr) (s : state) : Z * state :=
  let ctrl := parse args in
  if on ctrl ST_FAIL_1 then (PAM_PERM_DENIED, s)
  else if on ctrl ST_EXPIRED then
    if negb (e_yes E) then (PAM_BUF_ERR, s)
    else if negb (e_data E =? PAM_SUCCESS) then (e_data E, s)
    else (PAM_NEW_AUTHTOK_REQD, mkSt (authtok s) (oldauthtok s) (Some (lit "yes")) (asked s))
  else (PAM_SUCCESS, s).
(** pam_sm_open_session and pam_sm_close_session, modules/pam_stress/pam_stress.c:322-347, 349-374: they differ in the option. *)
Definition session (bit : Z) (E : env) (args : list cstr) : Z :=
  match e_user E, e_service E with
  | Some _, Some _ => if on (parse args) bit then PAM_SESSION_ERR else PAM_SUCCESS
  | _, _ => PAM_SESSION_ERR
  end.
Definition open_session := session ST_FAIL_1.
Definition close_session := session ST_FAIL_2.

(** The messages for a new password, modules/pam_stress/pam_stress.c:448-475. *)
Definition two_prompts : list msg := [(EchoOff, lit "Enter new STRESS password: "); (EchoOff, lit "Retype new STRESS password: ")].
Definition changing (user : cstr) : msg := (TextInfo, (lit "Changing STRESS password for " ++ user ++ lit ".")%list).
(** The message for different passwords, modules/pam_stress/pam_stress.c:500-503. *)
Definition mistyped : list msg := [(ErrorMsg, lit "Verification mis-typed; password unchanged")].
(** The new password: conversation and tokens, modules/pam_stress/pam_stress.c:478-525. [i] is the number of messages; responses are read at [i-2], [i-1] and 0, and at the end all
    [i] are released (497, 525), so a shorter array is undefined behaviour, as is an empty one after the error message (507). *)
Definition new_password (E : env) (flags ctrl : Z) (msgs : list msg) (s : state) : res (Z * state) :=
  let '(rc, r, s) := converse E msgs s in
  if negb (rc =? PAM_SUCCESS) then Ok (rc, s)
  else match r with
  | None => Ok (PAM_CONV_ERR, s)
  | Some resp =>
      let i := length msgs in
      if Nat.ltb (length resp) i then UB
      else match nth (i - 2) resp None, nth (i - 1) resp None with
      | Some a, Some b =>
          if negb (streq a b) then
            if negb (on flags F_SILENT) && negb (on ctrl ST_NO_WARN) then
              let '(_, r, s) := converse E mistyped s in match r with Some [] => UB | _ => Ok (PAM_AUTHTOK_ERR, s) end
            else Ok (PAM_AUTHTOK_ERR, s)
          else
            let s := set_old (snd (put (e_set E 2) (authtok s) (oldauthtok s))) s in
            let s := set_tok (snd (put (e_set E 3) (nth 0 resp None) (authtok s))) s in
            Ok (PAM_SUCCESS, s)
      | _, _ => Ok (PAM_SYSTEM_ERR, s)
      end
  end.
(** The second call of pam_sm_chauthtok after the tests, modules/pam_stress/pam_stress.c:418-476. *)
Definition change (E : env) (flags ctrl : Z) (s : state) : res (Z * state) :=
  bind (if on ctrl ST_REQUIRE_PWD && negb (e_root E && on ctrl ST_ROOTOK) then
          bind (get_password E flags ctrl s) (fun '(rc, pass, s) =>
          if negb (rc =? PAM_SUCCESS) then Ok (rc, s)
          else let (rc, tok) := put (e_set E 1) pass (oldauthtok s) in Ok (rc, set_old tok s))
        else Ok (PAM_SUCCESS, s)) (fun '(rc, s) =>
  if negb (rc =? PAM_SUCCESS) then Ok (rc, s)
  else if on flags F_SILENT then new_password E flags ctrl two_prompts s
  else match e_user E with
  | None => Ok (PAM_USER_UNKNOWN, s)
  | Some u => if e_text E then new_password E flags ctrl (changing u :: two_prompts) s else Ok (PAM_BUF_ERR, s)
  end).
(** pam_sm_chauthtok, modules/pam_stress/pam_stress.c:376-533. *)
Definition chauthtok (E : env) (flags : Z) (args : list cstr) (s : state) : res (Z * state) :=
  let ctrl := parse args in
  if on flags F_PRELIM then Ok (if on ctrl ST_PRELIM then PAM_TRY_AGAIN else PAM_SUCCESS, s)
  else if on flags F_UPDATE then
    if on ctrl ST_FAIL_1 then Ok (PAM_AUTHTOK_LOCK_BUSY, s)
    else if negb (on ctrl ST_EXPIRED) && on flags F_CHANGE_EXPIRED && match marker s with Some t => negb (streq t (lit "yes")) | None => true end then Ok (PAM_SUCCESS, s)
    else change E flags ctrl s
  else Ok (PAM_SYSTEM_ERR, s).
