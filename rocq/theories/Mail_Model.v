(** Model of pam_mail: modules/pam_mail/pam_mail.c. Logging and wiping of memory are left out. *)
From Coq Require Import String Ascii List Arith ZArith Bool.
From Verif Require Import Base Str_Model Opt_Model.
Import ListNotations.
Local Open Scope Z_scope.

(** The options, modules/pam_mail/pam_mail.c:42-51 and 58-62; [o_new] is PAM_NEW_MAIL_DIR. *)
Record opts := mkOpts { o_silent : bool; o_quiet : bool; o_standard : bool; o_empty : bool; o_new : bool; o_dir : cstr; o_hash : Z; o_close : bool; o_nopen : bool; o_noenv : bool }.
(** One argument, modules/pam_mail/pam_mail.c:71-108. *)
Definition parse_arg (o : opts) (a : cstr) : opts :=
  if streq a (lit "debug") then o
  else if streq a (lit "quiet") then mkOpts (o_silent o) true (o_standard o) (o_empty o) (o_new o) (o_dir o) (o_hash o) (o_close o) (o_nopen o) (o_noenv o)
  else if streq a (lit "standard") then mkOpts (o_silent o) (o_quiet o) true true (o_new o) (o_dir o) (o_hash o) (o_close o) (o_nopen o) (o_noenv o)
  else match skip_prefix (lit "dir=") a with
  | Some d => mkOpts (o_silent o) (o_quiet o) (o_standard o) (o_empty o) (match d with [] => o_new o | _ => true end) d (o_hash o) (o_close o) (o_nopen o) (o_noenv o)
  | None =>
  match skip_prefix (lit "hash=") a with
  | Some h => mkOpts (o_silent o) (o_quiet o) (o_standard o) (o_empty o) (o_new o) (o_dir o) (fst (strtoul 10 h)) (o_close o) (o_nopen o) (o_noenv o)
  | None =>
      if streq a (lit "close") then mkOpts (o_silent o) (o_quiet o) (o_standard o) (o_empty o) (o_new o) (o_dir o) (o_hash o) true (o_nopen o) (o_noenv o)
      else if streq a (lit "nopen") then mkOpts (o_silent o) (o_quiet o) (o_standard o) (o_empty o) (o_new o) (o_dir o) (o_hash o) (o_close o) true (o_noenv o)
      else if streq a (lit "noenv") then mkOpts (o_silent o) (o_quiet o) (o_standard o) (o_empty o) (o_new o) (o_dir o) (o_hash o) (o_close o) (o_nopen o) true
      else if streq a (lit "empty") then mkOpts (o_silent o) (o_quiet o) (o_standard o) true (o_new o) (o_dir o) (o_hash o) (o_close o) (o_nopen o) (o_noenv o)
      else o
  end end.
(** _pam_parse, modules/pam_mail/pam_mail.c:58-116; [spool] is DEFAULT_MAIL_DIRECTORY. *)
Definition parse (spool : cstr) (silent : bool) (args : list cstr) : opts :=
  let o := fold_left parse_arg args (mkOpts silent false false false false [] 0 false false false) in
  if negb (o_hash o =? 0) && negb (o_new o) then mkOpts (o_silent o) (o_quiet o) (o_standard o) (o_empty o) true spool (o_hash o) (o_close o) (o_nopen o) (o_noenv o)
  else o.

(** What stat(2) finds: nothing, a directory, or another file with its size and times. *)
Inductive found := Nothing | Directory | Other (size atime mtime : Z).
(** scandir(3), modules/pam_mail/pam_mail.c:212 and 233: the number of entries, no memory, or another error. *)
Inductive scanned := Entries (n : Z) | NoMemory | Unreadable.
(** HAVE_NEW_MAIL, HAVE_OLD_MAIL, HAVE_NO_MAIL, HAVE_MAIL, modules/pam_mail/pam_mail.c:53-56. *)
Inductive kind := New | Old | No | Mail.
(** What is done to the outside: the variable MAIL set or removed, a message shown with the name of the folder (None: the text has no name). *)
Inductive effect := Set_ (v : cstr) | Removed | Told (k : kind) (folder : option cstr).
(** Answers from outside: pam_get_user (384), the name and the home directory of the user (391), memory by line, stat and scandir, privileges dropped and
    regained (438, 443), pam_putenv (417), pam_info (289-320). *)
Record env := mkEnv {
  e_spool : cstr; e_user : option cstr; e_pw : cstr -> option (cstr * cstr); e_mem : Z -> bool; e_stat : cstr -> found; e_scan : cstr -> scanned;
  e_drop : bool; e_regain : bool; e_putenv : bool; e_info : Z
}.

(** The hash directories, modules/pam_mail/pam_mail.c:151-152 and 165-169. *)
Definition hash_dirs (count : Z) (name : cstr) : cstr := flat_map (fun c => [c_slash; c]) (firstn (Z.to_nat (Z.min count (Z.of_nat (length name)))) name).
(** get_folder, modules/pam_mail/pam_mail.c:118-192. *)
Definition get_folder (E : env) (o : opts) (name home : cstr) : Z * cstr :=
  let spooled path :=
    if negb (e_mem E 162) then (PAM_BUF_ERR, [])
    else if negb (e_mem E 171) then (PAM_BUF_ERR, [])
    else (PAM_SUCCESS, path ++ hash_dirs (o_hash o) name ++ c_slash :: name)%list in
  let at_home path := if negb (e_mem E 156) then (PAM_BUF_ERR, []) else (PAM_SUCCESS, home ++ c_slash :: path)%list in
  if o_new o then
    match o_dir o with
    | "~"%char :: [] => (PAM_SERVICE_ERR, [])
    | "~"%char :: "/"%char :: [] => (PAM_SERVICE_ERR, [])
    | "~"%char :: "/"%char :: path => at_home path
    | "~"%char :: path => at_home path
    | path => spooled path
    end
  else spooled (e_spool E).
(** get_mail_status, modules/pam_mail/pam_mail.c:194-270; None is 0. *)
Definition get_mail_status (E : env) (o : opts) (folder : cstr) : option kind :=
  match e_stat E folder with
  | Nothing => None
  | Directory =>
      if negb (e_mem E 208) then None
      else
        let old :=
          if negb (e_mem E 229) then None
          else match e_scan E (folder ++ lit "/cur")%list with
          | NoMemory => None
          | Unreadable => if o_empty o then Some No else None
          | Entries n => if 2 <? n then Some Old else if o_empty o then Some No else None
          end in
        match e_scan E (folder ++ lit "/new")%list with
        | NoMemory => None
        | Unreadable => old
        | Entries n => if 2 <? n then Some New else old
        end
  | Other size atime mtime =>
      if 0 <? size then (if atime <? mtime then Some New else if o_standard o then Some Mail else Some Old)
      else if o_empty o then Some No else None
  end.
(** report_mail, modules/pam_mail/pam_mail.c:272-327. *)
Definition report_mail (E : env) (o : opts) (k : kind) (folder : cstr) : Z * list effect :=
  if o_silent o || (o_quiet o && match k with New => false | _ => true end) then (PAM_SUCCESS, [])
  else (e_info E, [Told k (if o_standard o then None else Some folder)]).
(** _do_mail, modules/pam_mail/pam_mail.c:367-466; [est]: the session or the credentials are established. *)
Definition do_mail (E : env) (silent : bool) (args : list cstr) (est : bool) : Z * list effect :=
  let o := parse (e_spool E) silent args in
  match e_user E with
  | None => (PAM_USER_UNKNOWN, [])
  | Some user =>
      match e_pw E user with
      | None => (PAM_USER_UNKNOWN, [])
      | Some (name, home) =>
          let '(r, folder) := get_folder E o name home in
          if negb (r =? PAM_SUCCESS) then (r, [])
          else
            let setting := negb (o_noenv o) && est in
            if setting && negb (e_mem E 408) then (PAM_BUF_ERR, [])
            else if setting && negb (e_putenv E) then (PAM_BUF_ERR, [])
            else
              let w1 := if setting then [Set_ (lit "MAIL=" ++ folder)%list] else [] in
              let w3 := if negb est && negb (o_noenv o) then [Removed] else [] in
              if (est && negb (o_nopen o)) || (negb est && o_close o) then
                if negb (e_drop E) then (PAM_SESSION_ERR, w1)
                else
                  let type := get_mail_status E o folder in
                  if negb (e_regain E) then (PAM_SESSION_ERR, w1)
                  else match type with
                  | Some k => let '(r, w2) := report_mail E o k folder in (r, w1 ++ w2 ++ w3)%list
                  | None => (PAM_SUCCESS, w1 ++ w3)%list
                  end
              else (PAM_SUCCESS, w1 ++ w3)%list
      end
  end.
(** pam_sm_authenticate, pam_sm_setcred, pam_sm_open_session, pam_sm_close_session, modules/pam_mail/pam_mail.c:333-362. *)
Inductive call := Authenticate | Setcred (establish delete : bool) | Open | Close.
Definition pam_mail (E : env) (c : call) (silent : bool) (args : list cstr) : Z * list effect :=
  match c with
  | Authenticate => (PAM_IGNORE, [])
  | Setcred establish delete => if negb (establish || delete) then (PAM_IGNORE, []) else do_mail E silent args establish
  | Open => do_mail E silent args true
  | Close => do_mail E silent args false
  end.
