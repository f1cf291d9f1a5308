(** Model of pam_ftp and of the modules that decide by one question: modules/pam_ftp/pam_ftp.c, modules/pam_rootok/pam_rootok.c,
    modules/pam_rhosts/pam_rhosts.c, modules/pam_localuser/pam_localuser.c, modules/pam_canonicalize_user/pam_canonicalize_user.c,
    modules/pam_permit/pam_permit.c and modules/pam_debug/pam_debug.c. *)
From Coq Require Import String Ascii List Arith ZArith Bool.
From Verif Require Import Base Str_Model Opt_Model Ctl_Model Modutil_Model.
Import ListNotations.

(** The items these modules use. *)
Record items := mkItems { i_user : option cstr; i_ruser : option cstr; i_rhost : option cstr; i_authtok : option cstr }.
Inductive item := IUser | IRuser | IRhost | IAuthtok.
(** pam_set_item, libpam/pam_item.c:16-25,60-95, called by a module: [ok] is false if there is no memory for the copy; nothing is copied for NULL.
    The old PAM_AUTHTOK is overwritten before that. *)
Definition set_item (ok : bool) (i : item) (v : option cstr) (s : items) : Z * items :=
  let done := match v with None => true | Some _ => ok end in
  if done then
    (PAM_SUCCESS, match i with
     | IUser => mkItems v (i_ruser s) (i_rhost s) (i_authtok s) | IRuser => mkItems (i_user s) v (i_rhost s) (i_authtok s)
     | IRhost => mkItems (i_user s) (i_ruser s) v (i_authtok s) | IAuthtok => mkItems (i_user s) (i_ruser s) (i_rhost s) v
     end)
  else (PAM_BUF_ERR, match i with IAuthtok => mkItems (i_user s) (i_ruser s) (i_rhost s) (match i_authtok s with Some _ => Some [] | None => None end) | _ => s end).

(** ** pam_ftp *)
Record ftp_options := mkFtp { f_ignore : bool; f_users : option cstr }.
(** _pam_parse, modules/pam_ftp/pam_ftp.c:34-56; nothing sets PAM_NO_ANON, and debug has no effect. *)
Definition ftp_step (o : ftp_options) (a : cstr) : ftp_options :=
  if streq a (lit "debug") then o
  else if streq a (lit "ignore") then mkFtp true (f_users o)
  else match skip_prefix (lit "users=") a with Some s => mkFtp (f_ignore o) (Some s) | None => o end.
Definition ftp_parse (args : list cstr) : ftp_options := fold_left ftp_step args (mkFtp false None).
(** lookup, modules/pam_ftp/pam_ftp.c:63-100: None if the name is not listed, otherwise the user to be, None for NULL. [alloc] is strdup. The copy of
    the list ends where the first call of strtok_r has put a NUL. *)
Definition lookup (alloc : bool) (name : cstr) (list_ : option cstr) : option (option cstr) :=
  match list_ with
  | Some (c :: l) =>
      let l := c :: l in
      if alloc && existsb (streq name) (strtoks (lit ",") l)
      then Some (Some (let '(p, r) := span (among (lit ",")) l in (p ++ fst (span (fun c => negb (among (lit ",") c)) r))%list))
      else None
  | _ => if streq (lit "ftp") name || streq (lit "anonymous") name then Some (if alloc then Some (lit "ftp") else None) else None
  end.
(** What is asked for, without echo. *)
Inductive asked := AskPassword (user : cstr) | AskEmail.
(** What the module depends on: pam_get_user; strdup; copying of an item; the answer of the conversation. *)
Record ftp_env := mkFtpEnv { fe_user : Z * cstr; fe_alloc : bool; fe_set : item -> bool; fe_conv : asked -> Z * option cstr }.
Record ftp_result := mkFtpResult { fr_rc : Z; fr_items : items; fr_asked : option asked }.
(** pam_sm_authenticate, modules/pam_ftp/pam_ftp.c:104-206. strtok_r on NULL without a saved position is UB. *)
Definition ftp_authenticate (E : ftp_env) (args : list cstr) (s : items) : res ftp_result :=
  let o := ftp_parse args in
  let '(rc, user) := fe_user E in
  if negb (rc =? PAM_SUCCESS)%Z then Ok (mkFtpResult PAM_USER_UNKNOWN s None)
  else
    let anon := lookup (fe_alloc E) user (f_users o) in
    let '(rc, s) := match anon with Some u => set_item (fe_set E IUser) IUser u s | None => (PAM_SUCCESS, s) end in
    if match anon with Some u => negb (rc =? PAM_SUCCESS)%Z || match u with None => true | Some _ => false end | None => false end
    then Ok (mkFtpResult PAM_USER_UNKNOWN s None)
    else
      let q := match anon with Some _ => AskEmail | None => AskPassword user end in
      let '(rc, resp) := fe_conv E q in
      if negb (rc =? PAM_SUCCESS)%Z then Ok (mkFtpResult (if (rc =? PAM_CONV_AGAIN)%Z then PAM_INCOMPLETE else PAM_AUTHINFO_UNAVAIL) s (Some q))
      else match anon with
      | None => Ok (mkFtpResult PAM_AUTH_ERR (snd (set_item (fe_set E IAuthtok) IAuthtok resp s)) (Some q))
      | Some _ =>
          if f_ignore o then Ok (mkFtpResult PAM_SUCCESS s (Some q))
          else match resp with
          | None => UB
          | Some text =>
              match strtok (lit "@") text with
              | None => Ok (mkFtpResult PAM_SUCCESS (snd (set_item (fe_set E IRuser) IRuser None s)) (Some q))
              | Some (t, rest) =>
                  let '(rc, s) := set_item (fe_set E IRuser) IRuser (Some t) s in
                  if (rc =? PAM_SUCCESS)%Z
                  then Ok (mkFtpResult PAM_SUCCESS (snd (set_item (fe_set E IRhost) IRhost (match strtok (lit "@") rest with Some (h, _) => Some h | None => None end) s)) (Some q))
                  else Ok (mkFtpResult PAM_SUCCESS s (Some q))
              end
          end
      end.

(** ** pam_rootok *)
(** SELinux as the module sees it: None if it is built without; otherwise is_selinux_enabled, getprevcon_raw (None: it fails), selinux_check_access for
    passwd/rootok on that context, security_getenforce. *)
Record selinux := mkSelinux { se_enabled : Z; se_prevcon : option cstr; se_access : cstr -> Z; se_enforce : Z }.
(** selinux_check_root, modules/pam_rootok/pam_rootok.c:86-110. *)
Definition selinux_check_root (L : selinux) : Z :=
  if (se_enabled L <? 1)%Z then 0%Z else match se_prevcon L with None => (-1)%Z | Some c => se_access L c end.
(** check_for_root, modules/pam_rootok/pam_rootok.c:112-129: the whole of pam_sm_authenticate, pam_sm_acct_mgmt and pam_sm_chauthtok (131-173). *)
Definition check_for_root (uid : Z) (L : option selinux) : Z :=
  if (uid =? 0)%Z && match L with None => true | Some L => (selinux_check_root L =? 0)%Z || (se_enforce L =? 0)%Z end then PAM_SUCCESS else PAM_AUTH_ERR.

(** ** pam_rhosts *)
(** pam_get_item for PAM_RHOST and PAM_RUSER, pam_get_user, the user-ID of an account, and ruserok(rhost, as_root, ruser, luser). *)
Record rhosts_env := mkRhosts { rh_rhost : Z * option cstr; rh_ruser : Z * option cstr; rh_user : Z * cstr; rh_uid : cstr -> option Z; rh_ruserok : cstr -> bool -> cstr -> cstr -> Z }.
(** The option superuser=, modules/pam_rhosts/pam_rhosts.c:62-77; the others only change what is logged. *)
Definition superuser_step (o : option cstr) (a : cstr) : option cstr :=
  if streq a (lit "debug") || streq a (lit "silent") || streq a (lit "suppress") then o
  else match skip_prefix (lit "superuser=") a with Some s => Some s | None => o end.
(** pam_sm_authenticate, modules/pam_rhosts/pam_rhosts.c:48-134. *)
Definition rhosts_authenticate (E : rhosts_env) (args : list cstr) : Z :=
  let super := fold_left superuser_step args None in
  if negb (fst (rh_rhost E) =? PAM_SUCCESS)%Z then fst (rh_rhost E)
  else if negb (fst (rh_ruser E) =? PAM_SUCCESS)%Z then fst (rh_ruser E)
  else if negb (fst (rh_user E) =? PAM_SUCCESS)%Z then fst (rh_user E)
  else match snd (rh_rhost E), snd (rh_ruser E) with
  | Some rhost, Some ruser =>
      let luser := snd (rh_user E) in
      match (match super with
             | Some s => if streq s luser then Some true else match rh_uid E luser with Some u => Some (u =? 0)%Z | None => None end
             | None => match rh_uid E luser with Some u => Some (u =? 0)%Z | None => None end
             end) with
      | None => PAM_USER_UNKNOWN
      | Some as_root => if (rh_ruserok E rhost as_root ruser luser =? 0)%Z then PAM_SUCCESS else PAM_AUTH_ERR
      end
  | _, _ => PAM_AUTH_ERR
  end.

(** ** pam_localuser *)
(** The option file=, modules/pam_localuser/pam_localuser.c:62-84. *)
Definition file_step (o : option cstr) (a : cstr) : option cstr :=
  if streq (lit "debug") a then o else match skip_prefix (lit "file=") a with Some s => Some s | None => o end.
(** pam_localuser, modules/pam_localuser/pam_localuser.c:52-94, with the default of libpam/pam_modutil_check_user.c:31-33: [open_] are the contents of a file. *)
Definition localuser (open_ : cstr -> option (list ascii)) (user : Z * cstr) (args : list cstr) : res Z :=
  if negb (fst user =? PAM_SUCCESS)%Z then Ok (if (fst user =? PAM_CONV_AGAIN)%Z then PAM_INCOMPLETE else fst user)
  else
    let f := open_ (match fold_left file_step args None with Some f => f | None => lit "/etc/passwd" end) in
    check_user (S (match f with Some t => length t | None => 0 end)) (snd user) f.

(** ** pam_canonicalize_user *)
(** pam_sm_authenticate, modules/pam_canonicalize_user/pam_canonicalize_user.c:46-69: [name] is the name in the account found for a name. *)
Definition canonicalize (ok : bool) (user : Z * cstr) (name : cstr -> option cstr) (s : items) : Z * items :=
  if negb (fst user =? PAM_SUCCESS)%Z then (if (fst user =? PAM_CONV_AGAIN)%Z then PAM_INCOMPLETE else fst user, s)
  else match name (snd user) with
  | None => (PAM_USER_UNKNOWN, s)
  | Some n => if streq (snd user) n then (PAM_IGNORE, s)
              else let '(rc, s) := set_item ok IUser (Some n) s in (if (rc =? PAM_SUCCESS)%Z then PAM_IGNORE else rc, s)
  end.

(** ** pam_permit *)
(** pam_sm_authenticate, modules/pam_permit/pam_permit.c:17-41. *)
Definition permit (ok : bool) (user : Z * cstr) (s : items) : Z * items :=
  if negb (fst user =? PAM_SUCCESS)%Z then (fst user, s)
  else match snd user with
  | [] => let '(rc, s) := set_item ok IUser (Some (lit "nobody")) s in (if (rc =? PAM_SUCCESS)%Z then PAM_SUCCESS else PAM_USER_UNKNOWN, s)
  | _ => (PAM_SUCCESS, s)
  end.

(** ** pam_debug *)
(** The place of a name in _pam_token_returns. *)
Fixpoint place (names : list cstr) (j : nat) (s : cstr) : option nat :=
  match names with [] => None | n :: names => if streq s n then Some j else place names (S j) s end.
(** parse_args, modules/pam_debug/pam_debug.c:31-54: the result, and the argument told. _PAM_RETURN_VALUES does not count the last name, "default". *)
Fixpoint debug_args (event : cstr) (args : list cstr) : Z * option cstr :=
  match args with
  | [] => (PAM_SUCCESS, None)
  | a :: args =>
      match skip_prefix (event ++ lit "=")%list a with
      | Some r => match place (removelast token_returns) 0 r with Some j => (Z.of_nat j, Some a) | None => (PAM_SUCCESS, None) end
      | None => debug_args event args
      end
  end.
(** The service functions, modules/pam_debug/pam_debug.c:56-100: the name of the event; [true] for the preliminary check of a password change. *)
Inductive service := SAuth | SCred | SAcct | SChauthtok (prelim : bool) | SOpen | SClose.
Definition event_name (s : service) : cstr :=
  lit match s with SAuth => "auth" | SCred => "cred" | SAcct => "acct" | SChauthtok true => "prechauthtok" | SChauthtok false => "chauthtok" | SOpen => "open_session" | SClose => "close_session" end.
Definition debug_service (s : service) (args : list cstr) : Z * option cstr := debug_args (event_name s) args.
