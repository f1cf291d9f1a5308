(** Model of modules/pam_pwhistory: opasswd.c, pwhistory_config.c and pam_pwhistory.c, built without SELinux, so that the helper program
    is never run. Logging is left out. Texts are lists of bytes; a file is its bytes, mode and owners; file names and links are resolved
    only by their spelling. *)
From Coq Require Import String Ascii List Arith ZArith Bool.
From Verif Require Import Base Num_Model Str_Model Opt_Model Umask_Model.
Import ListNotations.
Local Open Scope Z_scope.

(** A file as seen by fstat and getline, modules/pam_pwhistory/opasswd.c:297-311, 360-366. *)
Record file := mkFile { f_data : list ascii; f_mode : Z; f_uid : Z; f_gid : Z }.
(** The files, by name; None is a name that does not exist, modules/pam_pwhistory/opasswd.c:166, 297, 527-532. *)
Definition disk := cstr -> option file.
(** The disk after the name [p] was given the file [v] (link, rename) or was removed (unlink), modules/pam_pwhistory/opasswd.c:527-535. *)
Definition put (p : cstr) (v : option file) (d : disk) : disk := fun q => if streq q p then v else d q.

(** The part of struct passwd that is used, modules/pam_pwhistory/opasswd.c:253-289, 472. *)
Record pwent := mkPwent { p_name : cstr; p_passwd : cstr; p_uid : Z }.

(** What the C library and the system do, modules/pam_pwhistory/opasswd.c: getpwnam (253), getspnam and its sp_pwdp, which may be NULL (279-286),
    crypt (131), and which calls succeed: calloc of the n-th comparison (127), fopen of a file that exists (166, 297; one answer for both),
    pam_asprintf of the name (248), fstat (311), mkstemp (320), fchmod (332, 341), fchown (335, 344), fdopen (348), strdup of line n (368),
    pam_asprintf and fputs of line n (425-431, 441, 456) and of the new line (472, 480), fclose (495), fflush and fsync (503), fclose (512),
    pam_asprintf of the backup name (520), link (528), rename (532). A failed link or rename changes nothing.
    Simplification: getline does not fail before the end of the file. *)
Record env := mkEnv {
  e_pw : cstr -> option pwent; e_sp : cstr -> option (option cstr); e_crypt : cstr -> cstr -> option cstr; e_calloc : nat -> bool;
  e_fopen : bool; e_name : bool; e_fstat : bool; e_mkstemp : bool; e_chmod : bool; e_chown : bool; e_fdopen : bool;
  e_dup : nat -> bool; e_out : nat -> bool; e_put : nat -> bool; e_out1 : bool; e_put1 : bool;
  e_close : bool; e_sync : bool; e_close1 : bool; e_bak : bool; e_link : bool; e_rename : bool }.

(** opasswd_file, modules/pam_pwhistory/opasswd.c:73, 163-164, 246-247; SCONFIG_DIR is /etc/security. *)
Definition opasswd_file (name : option cstr) : cstr := match name with Some f => f | None => lit "/etc/security/opasswd" end.

(** opwd, modules/pam_pwhistory/opasswd.c:75-80: user, uid and old_passwords (None is NULL); the count that was read is never used. *)
Record opwd := mkOpwd { o_user : cstr; o_uid : cstr; o_old : option cstr }.
(** parse_entry, modules/pam_pwhistory/opasswd.c:96-116; None is 1. Repeated strsep gives the fields; without a conversion endptr is count. *)
Definition parse_entry (line : cstr) : option opwd :=
  match fields ":"%char line with
  | u :: i :: count :: r =>
      match (match strtol count with (_, Some rest) => rest | (_, None) => count end) with
      | [] => Some (mkOpwd u i (match r with o :: _ => Some o | [] => None end))
      | _ :: _ => None
      end
  | _ => None
  end.

(** compare_password, modules/pam_pwhistory/opasswd.c:119-145, with HAVE_CRYPT_R; the n-th call. *)
Definition compare_password (E : env) (n : nat) (newpass oldpass : cstr) : Z :=
  if negb (e_calloc E n) then -1
  else match e_crypt E newpass oldpass with Some o => if streq o oldpass then 1 else 0 | None => 0 end.

(** The line of the user, modules/pam_pwhistory/opasswd.c:184-185, 381-382. *)
Definition own_line (user buf : cstr) : bool := match skip_prefix (user ++ [":"%char]) buf with Some _ => true | None => false end.

(** The loop of check_old_pass over the lines, modules/pam_pwhistory/opasswd.c:173-194; None when found is 0. *)
Fixpoint find_entry (user : cstr) (lines : list (list ascii)) : option opwd :=
  match lines with
  | [] => None
  | l :: ls =>
      let buf := chomp [c_nl] l in
      match buf with
      | [] => find_entry user ls
      | _ =>
          if own_line user buf then match parse_entry buf with Some e => Some e | None => find_entry user ls end
          else find_entry user ls
      end
  end.

(** The loop over the old passwords, modules/pam_pwhistory/opasswd.c:206-222; [n] counts the comparisons. *)
Fixpoint compare_all (E : env) (newpass : cstr) (n : nat) (olds : list cstr) : Z :=
  match olds with
  | [] => PAM_SUCCESS
  | [] :: olds => compare_all E newpass n olds
  | o :: olds => if compare_password E n newpass o =? 0 then compare_all E newpass (S n) olds else PAM_AUTHTOK_ERR
  end.

(** check_old_pass, modules/pam_pwhistory/opasswd.c:148-229. *)
Definition check_old_pass (E : env) (d : disk) (user newpass : cstr) (filename : option cstr) : Z :=
  match d (opasswd_file filename) with
  | None => PAM_SUCCESS
  | Some f =>
      if negb (e_fopen E) then PAM_SUCCESS
      else match find_entry user (lines_of (f_data f)) with
           | Some (mkOpwd _ _ (Some old)) => compare_all E newpass 0 (fields ","%char old)
           | _ => PAM_SUCCESS
           end
  end.

(** The loop of modules/pam_pwhistory/opasswd.c:417-423: old_passwords after it and the count. [fuel] of the count is enough.
    The count is an unbounded number here, an int there. *)
Fixpoint forget (fuel : nat) (howmany count : Z) (old : cstr) : Z * cstr :=
  match fuel with
  | O => (count, old)
  | S fuel =>
      if (howmany <? count) && (1 <? count) then
        forget fuel howmany (count - 1) (match strchr ","%char old with Some (_ :: p) => p | _ => old end)
      else (count, old)
  end.

(** What becomes of a line of the user, modules/pam_pwhistory/opasswd.c:391-431: None when the line is kept (408), else the new text.
    old_passwords is only read at 419 and 431 if the count is above one, so that it is not NULL there. *)
Definition new_entry (e : opwd) (howmany : Z) (oldpass : cstr) : option cstr :=
  let olds := match o_old e with Some (c :: s) => fields ","%char (c :: s) | _ => [] end in
  let count := Z.of_nat (length olds) in
  if negb (count =? 0) && streq (last olds []) oldpass && (count <=? howmany) then None
  else
    let '(n, old) := forget (Z.to_nat (count + 1)) howmany (count + 1) (match o_old e with Some s => s | None => [] end) in
    Some (o_user e ++ ":"%char :: o_uid e ++ ":"%char :: decimal n ++ ":"%char :: (if n =? 1 then oldpass else old ++ ","%char :: oldpass) ++ [c_nl])%list.

(** The loop of save_old_pass over the lines, modules/pam_pwhistory/opasswd.c:360-466: the error, or the text written and found. *)
Fixpoint copy_lines (E : env) (user : cstr) (howmany : Z) (oldpass : cstr) (n : nat) (lines : list (list ascii)) : Z + (list ascii * bool) :=
  match lines with
  | [] => inr ([], false)
  | l :: ls =>
      if negb (e_dup E n) then inl PAM_BUF_ERR
      else
        let save := cut l in
        let buf := chomp [c_nl] l in
        let go (out : list ascii) (found : bool) :=
          match copy_lines E user howmany oldpass (S n) ls with
          | inl r => inl r
          | inr (t, f) => inr ((out ++ t)%list, found || f)
          end in
        let write (out : list ascii) (found : bool) := if negb (e_put E n) then inl PAM_AUTHTOK_ERR else go out found in
        match buf with
        | [] => write save false
        | _ =>
            if own_line user buf then
              match parse_entry buf with
              | None => go [] false
              | Some e =>
                  match new_entry e howmany oldpass with
                  | None => write save true
                  | Some out => if negb (e_out E n) then inl PAM_AUTHTOK_ERR else write out true
                  end
              end
            else write save false
        end
  end.

(** printf("%d") of a uid_t, modules/pam_pwhistory/opasswd.c:472. *)
Definition dec_uid (u : Z) : cstr := if u <? 2 ^ 31 then decimal u else ("-"%char :: decimal (2 ^ 32 - u))%list.

(** The current password as save_old_pass finds it, modules/pam_pwhistory/opasswd.c:274-289; None is PAM_USER_UNKNOWN. *)
Definition current_pass (E : env) (user : cstr) (p : pwent) : option (option cstr) :=
  if streq (p_passwd p) (lit "x") || match p_passwd p with a :: b :: r => Ascii.eqb a "#"%char && Ascii.eqb b "#"%char && streq (p_name p) r | _ => false end
  then e_sp E user
  else Some (Some (p_passwd p)).

(** What save_old_pass writes into the temporary file, modules/pam_pwhistory/opasswd.c:359-493. *)
Definition new_text (E : env) (user : cstr) (uid howmany : Z) (oldpass : cstr) (data : option (list ascii)) : Z + list ascii :=
  match copy_lines E user howmany oldpass 0 (match data with Some t => lines_of t | None => [] end) with
  | inl r => inl r
  | inr (t, true) => inr t
  | inr (t, false) =>
      if negb (e_out1 E) then inl PAM_AUTHTOK_ERR
      else if negb (e_put1 E) then inl PAM_AUTHTOK_ERR
      else inr (t ++ user ++ ":"%char :: dec_uid uid ++ lit ":1:" ++ oldpass ++ [c_nl])%list
  end.

(** save_old_pass, modules/pam_pwhistory/opasswd.c:231-541. The temporary file is made by mkstemp with mode 0600 and the ids (0, 0) of the
    caller (simplification: the effective ids are 0) under a name that no file had; it is gone at the end (532, 535), so it is not kept in
    the disk. Simplification: when it cannot be given its owners or mode, it keeps those. *)
Definition save_old_pass (E : env) (d : disk) (user : cstr) (howmany : Z) (filename : option cstr) : Z * disk :=
  let f := opasswd_file filename in
  if negb (e_name E) then (PAM_BUF_ERR, d)
  else match e_pw E user with
  | None => (PAM_USER_UNKNOWN, d)
  | Some p =>
      if howmany <=? 0 then (PAM_SUCCESS, d)
      else match current_pass E user p with
      | None => (PAM_USER_UNKNOWN, d)
      | Some None | Some (Some []) => (PAM_SUCCESS, d)
      | Some (Some oldpass) =>
          if match d f with Some _ => negb (e_fopen E) || negb (e_fstat E) | None => false end then (PAM_AUTHTOK_ERR, d)
          else if negb (e_mkstemp E) then (PAM_AUTHTOK_ERR, d)
          else
            let '(m, u, g) := match d f with Some x => (f_mode x, f_uid x, f_gid x) | None => (384, 0, 0) end in
            let m := if e_chmod E then m else 384 in
            let '(u, g) := if e_chown E then (u, g) else (0, 0) in
            if negb (e_fdopen E) then (PAM_AUTHTOK_ERR, d)
            else match new_text E user (p_uid p) howmany oldpass (match d f with Some x => Some (f_data x) | None => None end) with
            | inl r => (r, d)
            | inr t =>
                if match d f with Some _ => negb (e_close E) | None => false end then (PAM_AUTHTOK_ERR, d)
                else if negb (e_sync E) then (PAM_AUTHTOK_ERR, d)
                else if negb (e_close1 E) then (PAM_AUTHTOK_ERR, d)
                else if negb (e_bak E) then (PAM_BUF_ERR, d)
                else
                  let b := (f ++ lit ".old")%list in
                  let d := put b None d in
                  let d := match d f with Some x => if e_link E then put b (Some x) d else d | None => d end in
                  (PAM_SUCCESS, if e_rename E then put f (Some (mkFile t m u g)) d else d)
            end
      end
  end.

(** options_t, modules/pam_pwhistory/pwhistory_config.h:41-47: remember, tries, enforce_for_root, filename; debug only changes messages. *)
Record opts := mkOpts { h_remember : Z; h_tries : Z; h_root : bool; h_file : option cstr }.

(** An integer stored in an int, modules/pam_pwhistory/pam_pwhistory.c:84, 92; pwhistory_config.c:105, 117: the low 32 bits, as gcc does. *)
Definition to_int (v : Z) : Z := (v + 2 ^ 31) mod 2 ^ 32 - 2 ^ 31.

(** sscanf(val, "%u", &temp) == 1, and temp as an int, modules/pam_pwhistory/pwhistory_config.c:98-107: as glibc converts. *)
Definition scan_u (val : cstr) : option Z :=
  match strtoul 10 val with (v, Some _) => Some (to_int v) | (_, None) => None end.

(** The file read, modules/pam_pwhistory/pwhistory_config.c:59-84, without a vendor directory. *)
Definition conf_name (args : list cstr) : cstr :=
  match fold_left (fun f a => match skip_prefix (lit "conf=") a with Some s => Some s | None => f end) args None with
  | Some f => f
  | None => lit "/etc/security/pwhistory.conf"
  end.

(** parse_config_file, modules/pam_pwhistory/pwhistory_config.c:55-132; [conf file key] is what pam_modutil_search_key gives. *)
Definition parse_config_file (conf : cstr -> cstr -> option cstr) (args : list cstr) (o : opts) : opts :=
  let key k := conf (conf_name args) k in
  mkOpts
    (match key (lit "remember") with Some v => match scan_u v with Some n => n | None => h_remember o end | None => h_remember o end)
    (match key (lit "retry") with Some v => match scan_u v with Some n => n | None => h_tries o end | None => h_tries o end)
    (match key (lit "enforce_for_root") with Some _ => true | None => h_root o end)
    (match key (lit "file") with Some (c :: v) => if Ascii.eqb c c_slash then Some (c :: v) else h_file o | _ => h_file o end).

(** parse_option, modules/pam_pwhistory/pam_pwhistory.c:69-112. *)
Definition parse_option (a : cstr) (o : opts) : opts :=
  if caseeq a (lit "try_first_pass") then o
  else if caseeq a (lit "use_first_pass") then o
  else if caseeq a (lit "use_authtok") then o
  else if caseeq a (lit "debug") then o
  else match skip_iprefix (lit "remember=") a with
  | Some s =>
      let n := to_int (fst (strtol s)) in
      let n := if n <? 0 then 0 else n in
      let n := if 400 <? n then 400 else n in
      mkOpts n (h_tries o) (h_root o) (h_file o)
  | None =>
  match skip_iprefix (lit "retry=") a with
  | Some s =>
      let n := to_int (fst (strtol s)) in
      mkOpts (h_remember o) (if n <? 0 then 1 else n) (h_root o) (h_file o)
  | None =>
      if caseeq a (lit "enforce_for_root") then mkOpts (h_remember o) (h_tries o) true (h_file o)
      else match skip_iprefix (lit "authtok_type=") a with
      | Some _ => o
      | None =>
          match skip_iprefix (lit "file=") a with
          | Some (c :: s) => if Ascii.eqb c c_slash then mkOpts (h_remember o) (h_tries o) (h_root o) (Some (c :: s)) else o
          | _ => o
          end
      end
  end end.

(** The options, modules/pam_pwhistory/pam_pwhistory.c:303-313. *)
Definition options (conf : cstr -> cstr -> option cstr) (args : list cstr) : opts :=
  fold_left (fun o a => parse_option a o) args (parse_config_file conf args (mkOpts 10 1 false None)).

(** What the module learns from outside, modules/pam_pwhistory/pam_pwhistory.c: the configuration (309), pam_get_user (321), the flags
    (325, 380), getuid (379), and for the k-th pam_get_authtok its result and the password that newpass points to, None for NULL (348). *)
Record menv := mkMenv { m_conf : cstr -> cstr -> option cstr; m_user : Z * cstr; m_prelim : bool; m_expired : bool; m_uid : Z;
  m_tok : nat -> Z * option cstr }.

(** What the user is told: that the password is refused (then PAM_AUTHTOK is cleared as well, 382-386), or only that it was used (389). *)
Inductive said := Refused (p : cstr) | Told (p : cstr).

(** The loop of pam_sm_chauthtok, modules/pam_pwhistory/pam_pwhistory.c:346-401: [more] tries remain, [k] were made. The result, newpass at
    the end and what was said. *)
Fixpoint ask (E : env) (M : menv) (d : disk) (user : cstr) (o : opts) (more k : nat) : Z * option cstr * list said :=
  match more with
  | O => (PAM_MAXTRIES, None, [])
  | S more =>
      let '(r, p) := m_tok M k in
      if negb (r =? PAM_SUCCESS) && negb (r =? PAM_TRY_AGAIN) then (if r =? PAM_CONV_AGAIN then PAM_INCOMPLETE else r, None, [])
      else match p with
      | None => ask E M d user o more (S k)
      | Some np =>
          if r =? PAM_TRY_AGAIN then (PAM_SUCCESS, Some np, [])
          else if check_old_pass E d user np (h_file o) =? PAM_SUCCESS then (PAM_SUCCESS, Some np, [])
          else if negb (m_uid M =? 0) || h_root o || m_expired M then
            let '(r, q, s) := ask E M d user o more (S k) in (r, q, Refused np :: s)
          else (PAM_SUCCESS, Some np, [Told np])
      end
  end.

(** pam_sm_chauthtok, modules/pam_pwhistory/pam_pwhistory.c:295-402: the result, the files, newpass at the end and what was said. The
    system behaves the same for all comparisons of one call, except for calloc (simplification: the counter starts again at each check). *)
Definition chauthtok (E : env) (M : menv) (d : disk) (args : list cstr) : Z * disk * option cstr * list said :=
  let o := options (m_conf M) args in
  if h_remember o =? 0 then (PAM_IGNORE, d, None, [])
  else let '(r, user) := m_user M in
  if negb (r =? PAM_SUCCESS) then (r, d, None, [])
  else if m_prelim M then (PAM_SUCCESS, d, None, [])
  else let '(r, d') := save_old_pass E d user (h_remember o) (h_file o) in
  if negb (r =? PAM_SUCCESS) then (r, d', None, [])
  else let '(r, p, s) := ask E M d' user o (Z.to_nat (h_tries o)) 0 in (r, d', p, s).
