(** Model of pam_unix: making password hashes and changing passwords, in the module (passverify.c, pam_unix_passwd.c, support.c) and in its
    helper unix_update. Built without SELinux and NIS, with lckpwdf. Logging and messages are left out. Files are those of Pwhist_Model. *)
From Coq Require Import String Ascii List Arith NArith ZArith Bool.
From Verif Require Import Base Num_Model Str_Model Opt_Model Inline_Model Unixctl_Model Unix_Model.
From Verif Require Pwhist_Model.
Import ListNotations.
Local Open Scope Z_scope.

(** Files and disks, modules/pam_unix/passverify.c:661-700. *)
Notation disk := Pwhist_Model.disk.
(** A file: bytes, mode, owners, modules/pam_unix/passverify.c:674-694. *)
Notation file := Pwhist_Model.file.
(** The disk after a name was given a file or removed, modules/pam_unix/passverify.c:772-776. *)
Notation put := Pwhist_Model.put.

(** * Hashes *)
(** i64c, modules/pam_unix/passverify.c:368-386. *)
Definition i64c (i : Z) : ascii :=
  if i <? 0 then "."%char
  else if 63 <? i then "z"%char
  else if i =? 0 then "."%char
  else if i =? 1 then "/"%char
  else if (2 <=? i) && (i <=? 11) then chr (Z.to_nat (48 - 2 + i))
  else if (12 <=? i) && (i <=? 37) then chr (Z.to_nat (65 - 12 + i))
  else if (38 <=? i) && (i <=? 63) then chr (Z.to_nat (97 - 38 + i))
  else NUL.
(** crypt_make_salt, modules/pam_unix/passverify.c:388-428: [rnd] are the bytes at src, read from the random device or made with MD5; they
    are the first [length] of them that count. *)
Definition make_salt (rnd : nat -> Z) (length : nat) : cstr := map (fun i => i64c (Z.land (rnd i) 63)) (seq 0 length).

Section Set_.
(** crypt_r (NULL is None). *)
Variable crypt : cstr -> cstr -> option cstr.
(** Goodcrypt_md5 and Brokencrypt_md5 when there is memory. *)
Variable md5_good md5_broken : cstr -> cstr -> option cstr.
(** Turns allowed to the reading loops of the helpers. *)
Variable fuel : nat.

(** crypt_md5_wrapper, modules/pam_unix/passverify.c:430-444; [mem]: Goodcrypt_md5 has memory. *)
Definition md5_wrapper (rnd : nat -> Z) (mem : bool) (pass : cstr) : option cstr :=
  if mem then md5_good pass (lit "$1$" ++ make_salt rnd 8) else None.

(** algoid, modules/pam_unix/passverify.c:461-473; None is the traditional hash. UNIX_MD5_PASS is handled before. *)
Definition algoid (ctrl : N) : option cstr :=
  if on YESCRYPT ctrl then Some (lit "$y$")
  else if on GOST_YESCRYPT ctrl then Some (lit "$gy$")
  else if on BLOWFISH_PASS ctrl then Some (lit "$2b$")
  else if on SHA256_PASS ctrl then Some (lit "$5$")
  else if on SHA512_PASS ctrl then Some (lit "$6$")
  else None.
(** create_password_hash, modules/pam_unix/passverify.c:446-537; None is NULL. Built with a crypt_gensalt_rn that finds its own entropy (493)
    and with crypt_r: [gensalt] gives what is in the array salt afterwards. [mem]: the allocations succeed. *)
Definition create_hash (rnd : nat -> Z) (gensalt : cstr -> Z -> cstr) (mem : bool) (password : cstr) (ctrl : N) (rounds : Z) : res (option cstr) :=
  if on MD5_PASS ctrl then Ok (md5_wrapper rnd mem password)
  else match algoid ctrl with
  | None => bigcrypt crypt mem (if off BIGCRYPT ctrl && (8 <? length password)%nat then firstn 8 password else password) (make_salt rnd 2)
  | Some a =>
      Ok (if mem then
            match crypt password (gensalt a rounds) with
            | Some sp => if is_prefix a sp then Some sp else None
            | None => None
            end
          else None)
  end.

(** * Replacing a file *)
(** Which calls succeed while a file is replaced, modules/pam_unix/passverify.c:352, 356 and for the three files 667/827/947, 674/834/954,
    681/841/961, 687/847/967, the n-th line or entry written 722-741/873/986, the entry added 754/1009, 760/884/1017, 765/889/1022, 772/896/1029;
    the name mkstemp chose; and what crypt_md5_wrapper draws and whether it has memory for line n. *)
Record io := mkIo { i_mkstemp : bool; i_fdopen : bool; i_open : bool; i_stat : bool; i_chown : bool; i_chmod : bool; i_put : nat -> bool;
  i_add : bool; i_sync : bool; i_close : bool; i_rename : bool; i_tmp : cstr; i_rnd : nat -> nat -> Z; i_mem : nat -> bool }.

(** What save_old_password, unix_update_passwd and unix_update_shadow have in common, modules/pam_unix/passverify.c:661-700 with 760-788,
    821-854 with 884-907 and 941-974 with 1017-1047: a temporary file with the mode and owners of the old file takes its place. [body] gives err
    and the text written, or no result when it is undefined. mkstemp chooses a name that no file has; without fdopen its file stays. *)
Definition replace (I : io) (d : disk) (path : cstr) (body : list ascii -> res (bool * list ascii)) : res (Z * disk) :=
  if negb (i_mkstemp I) then Ok (PAM_AUTHTOK_ERR, d)
  else if negb (i_fdopen I) then Ok (PAM_AUTHTOK_ERR, put (i_tmp I) (Some (Pwhist_Model.mkFile [] 384 0 0)) d)
  else match (if i_open I then d path else None) with
  | None => Ok (PAM_AUTHTOK_ERR, d)
  | Some f =>
      if negb (i_stat I) || negb (i_chown I) || negb (i_chmod I) then Ok (PAM_AUTHTOK_ERR, d)
      else bind (body (Pwhist_Model.f_data f)) (fun '(err, t) =>
        if err || negb (i_sync I) || negb (i_close I) || negb (i_rename I) then Ok (PAM_AUTHTOK_ERR, d)
        else Ok (PAM_SUCCESS, put path (Some (Pwhist_Model.mkFile t (Pwhist_Model.f_mode f) (Pwhist_Model.f_uid f) (Pwhist_Model.f_gid f))) d))
  end.

(** * The old passwords *)
(** OLD_PASSWORDS_FILE, modules/pam_unix/passverify.h:12; SCONFIG_DIR is /etc/security. *)
Definition OPASSWD : cstr := lit "/etc/security/opasswd".
(** The test for a line of the user, modules/pam_unix/passverify.c:698; strchr also finds the terminating zero. *)
Definition own_line (forwho buf : cstr) : bool :=
  match skip_prefix forwho buf with
  | Some (c :: _) => Ascii.eqb c ":"%char || Ascii.eqb c c_nl
  | Some [] => true
  | None => false
  end.
(** The loop that forgets passwords, modules/pam_unix/passverify.c:725-730; [s] is s_pas. *)
Fixpoint forget (fuel : nat) (howmany npas : Z) (s : option cstr) : Z * option cstr :=
  match fuel, s with
  | S fuel, Some p => if howmany <? npas then forget fuel howmany (npas - 1) (option_map snd (split_at ","%char p)) else (npas, s)
  | _, _ => (npas, s)
  end.
(** A line of the user without its last character, modules/pam_unix/passverify.c:705-738: the new line without the hash, or None when a field is
    missing. strtok_r with no delimiters gives all the rest, or NULL when there is none. *)
Definition shortened (howmany : Z) (buf : cstr) : option cstr :=
  match strtok (lit ":") buf with
  | None => None
  | Some (luser, r) =>
    match strtok (lit ":") r with
    | None => None
    | Some (uid, r) =>
      match strtok (lit ":") r with
      | None => None
      | Some (n, r) =>
          let pas := match r with [] => None | _ => Some r end in
          let npas := match strtol n with (v, Some []) => if (v <? 0) || (INT_MAX <=? v) then 0 else v + 1 | _ => 0 end in
          let '(npas, pas) := forget (S (length r)) howmany npas pas in
          Some (luser ++ lit ":" ++ uid ++ lit ":" ++ decimal npas ++ lit ":" ++ match pas with Some p => p ++ lit "," | None => [] end)%list
      end
    end
  end.
(** The loop of save_old_password, modules/pam_unix/passverify.c:697-745: the text written, found and err. A failed write writes nothing
    (simplification). The last character of an empty line would lie before the buffer; printing a NULL hash is undefined. *)
Fixpoint save_lines (I : io) (forwho oldpass : cstr) (howmany : Z) (n : nat) (found : bool) (lines : list (list ascii)) : res (list ascii * bool * bool) :=
  match lines with
  | [] => Ok ([], found, false)
  | l :: ls =>
      let buf := Str_Model.cut l in
      let go out found := bind (save_lines I forwho oldpass howmany (S n) found ls) (fun '(t, f, e) => Ok ((out ++ t)%list, f, e)) in
      if own_line forwho buf then
        if howmany =? 0 then go [] true
        else match buf with
        | [] => UB
        | _ =>
          match shortened howmany (removelast buf) with
          | None => go [] false
          | Some out =>
            match md5_wrapper (i_rnd I n) (i_mem I n) oldpass with
            | None => UB
            | Some h => if i_put I n then go (out ++ h ++ [c_nl])%list true else Ok ([], true, true)
            end
          end
        end
      else if i_put I n then go buf found
      else Ok ([], found, true)
  end.
(** What save_old_password writes, modules/pam_unix/passverify.c:697-758, with err; [uid] is what pam_modutil_getpwnam finds. The hash of the entry
    that is added is drawn last. *)
Definition save_body (I : io) (uid : option Z) (forwho oldpass : cstr) (howmany : Z) (data : list ascii) : res (bool * list ascii) :=
  let lines := lines_of data in
  bind (save_lines I forwho oldpass howmany 0 false lines) (fun '(t, found, err) =>
  if found then Ok (err, t)
  else match uid with
  | None => Ok (true, t)
  | Some u =>
      match md5_wrapper (i_rnd I (length lines)) (i_mem I (length lines)) oldpass with
      | None => UB
      | Some h => if i_add I then Ok (false, (t ++ forwho ++ lit ":" ++ decimal u ++ lit ":1:" ++ h ++ [c_nl])%list) else Ok (true, t)
      end
  end).
(** save_old_password, modules/pam_unix/passverify.c:610-789. *)
Definition save_old (I : io) (uid : option Z) (d : disk) (forwho : cstr) (oldpass : option cstr) (howmany : Z) : res (Z * disk) :=
  if howmany <? 0 then Ok (PAM_SUCCESS, d)
  else match oldpass with
  | None => Ok (PAM_SUCCESS, d)
  | Some oldpass => replace I d OPASSWD (save_body I uid forwho oldpass howmany)
  end.

(** The comparison with the passwords of a line, modules/pam_unix/pam_unix_passwd.c:347-356; [mem] says which calls of Goodcrypt_md5 have memory.
    true: refused. *)
Fixpoint used_before (mem : nat -> bool) (newpass : cstr) (n : nat) (olds : list cstr) : bool :=
  match olds with
  | [] => false
  | p :: olds =>
      match (if mem n then md5_good newpass p else None) with
      | None => true
      | Some h => streq h p || used_before mem newpass (S n) olds
      end
  end.
(** The passwords of a line without its last character, modules/pam_unix/pam_unix_passwd.c:342-346, 355; after NULL strtok_r gives NULL again. *)
Definition old_passwords (buf : cstr) : list cstr :=
  match strtok (lit ":") buf with
  | None => []
  | Some (_, r) =>
    match strtok (lit ":") r with
    | None => []
    | Some (_, r) => match strtok (lit ":") r with None => [] | Some (_, r) => strtoks (lit ",") r end
    end
  end.
(** The first line of the user, modules/pam_unix/pam_unix_passwd.c:339-340. *)
Fixpoint find_line (forwho : cstr) (lines : list (list ascii)) : option cstr :=
  match lines with
  | [] => None
  | l :: ls => match skip_prefix (forwho ++ lit ":") (Str_Model.cut l) with Some _ => Some (Str_Model.cut l) | None => find_line forwho ls end
  end.
(** check_old_password, modules/pam_unix/pam_unix_passwd.c:326-365; [opens]: fopen works if the file exists. *)
Definition check_old (opens : bool) (mem : nat -> bool) (d : disk) (forwho newpass : cstr) : Z :=
  match (if opens then d OPASSWD else None) with
  | None => PAM_ABORT
  | Some f =>
      match find_line forwho (lines_of (Pwhist_Model.f_data f)) with
      | None => PAM_SUCCESS
      | Some buf => if used_before mem newpass 0 (old_passwords (removelast buf)) then PAM_AUTHTOK_ERR else PAM_SUCCESS
      end
  end.

(** * The password files *)
(** struct passwd, the fields putpwent writes, modules/pam_unix/passverify.c:856-873. *)
Record pwrec := mkPwrec { r_name : cstr; r_passwd : cstr; r_uid : Z; r_gid : Z; r_gecos : cstr; r_dir : cstr; r_shell : cstr }.
(** struct spwd, the fields putspent writes, modules/pam_unix/passverify.c:976-1009. *)
Record sprec := mkSprec { s_name : cstr; s_passwd : cstr; s_lstchg : Z; s_min : Z; s_max : Z; s_warn : Z; s_inact : Z; s_expire : Z; s_flag : Z }.
(** The C library: the entries fgetpwent and fgetspent deliver from a text one after the other, and what putpwent and putspent write for an entry
    (None when they refuse it), modules/pam_unix/passverify.c:856-879, 976-1009. *)
Record libc := mkLibc { l_getpw : list ascii -> list pwrec; l_putpw : pwrec -> option (list ascii);
  l_getsp : list ascii -> list sprec; l_putsp : sprec -> option (list ascii) }.
(** /etc/passwd, modules/pam_unix/passverify.c:827. *)
Definition PASSWD : cstr := lit "/etc/passwd".
(** /etc/shadow, modules/pam_unix/passverify.c:947. *)
Definition SHADOW_FILE : cstr := lit "/etc/shadow".

(** The loop of unix_update_passwd, modules/pam_unix/passverify.c:856-879: err and the text. *)
Fixpoint passwd_loop (I : io) (L : libc) (forwho towhat : cstr) (n : nat) (err : bool) (es : list pwrec) : bool * list ascii :=
  match es with
  | [] => (err, [])
  | e :: es =>
      let own := streq (r_name e) forwho in
      let e := if own then mkPwrec (r_name e) towhat (r_uid e) (r_gid e) (r_gecos e) (r_dir e) (r_shell e) else e in
      let err := if own then false else err in
      match (if i_put I n then l_putpw L e else None) with
      | None => (true, [])
      | Some out => let '(err, t) := passwd_loop I L forwho towhat (S n) err es in (err, (out ++ t)%list)
      end
  end.
(** unix_update_passwd, modules/pam_unix/passverify.c:791-908. *)
Definition update_passwd (I : io) (L : libc) (d : disk) (forwho towhat : cstr) : res (Z * disk) :=
  replace I d PASSWD (fun data => Ok (passwd_loop I L forwho towhat 0 true (l_getpw L data))).

(** sp_lstchg from time(NULL), modules/pam_unix/passverify.c:981-984, 1002-1005. *)
Definition today (now : Z) : Z := let day := Z.quot now 86400 in if day =? 0 then -1 else day.
(** The loop of unix_update_shadow, modules/pam_unix/passverify.c:976-993: err, wroteentry and the text. *)
Fixpoint shadow_loop (I : io) (L : libc) (now : Z) (forwho towhat : cstr) (n : nat) (wrote : bool) (es : list sprec) : bool * bool * list ascii :=
  match es with
  | [] => (false, wrote, [])
  | e :: es =>
      let own := streq (s_name e) forwho in
      let e := if own then mkSprec (s_name e) towhat (today now) (s_min e) (s_max e) (s_warn e) (s_inact e) (s_expire e) (s_flag e) else e in
      let wrote := wrote || own in
      match (if i_put I n then l_putsp L e else None) with
      | None => (true, wrote, [])
      | Some out => let '(err, wrote, t) := shadow_loop I L now forwho towhat (S n) wrote es in (err, wrote, (out ++ t)%list)
      end
  end.
(** unix_update_shadow, modules/pam_unix/passverify.c:910-1048; sp_flag becomes the largest unsigned long. *)
Definition update_shadow (I : io) (L : libc) (now : Z) (d : disk) (forwho towhat : cstr) : res (Z * disk) :=
  replace I d SHADOW_FILE (fun data =>
    let '(err, wrote, t) := shadow_loop I L now forwho towhat 0 false (l_getsp L data) in
    if negb wrote && negb err then
      match (if i_add I then l_putsp L (mkSprec forwho towhat (today now) (-1) (-1) (-1) (-1) (-1) ULONG_MAX) else None) with
      | Some out => Ok (false, (t ++ out)%list)
      | None => Ok (true, t)
      end
    else Ok (err, t)).

(** * Setting a password *)
(** Calls that matter from outside: taking and releasing the lock, and the files that are replaced, modules/pam_unix/pam_unix_passwd.c:474-489. *)
Inductive step := Lock | Unlock | Write (path : cstr).
(** Circumstances of setting a password: for the three files in the order opasswd, shadow, passwd; the C library; the time; getpwnam, of which
    the uid is wanted apart from what Unix_Model has; whether fopen of /etc/passwd works in _unix_getpwnam, modules/pam_unix/support.c:360. *)
Record env := mkEnv { n_save : io; n_shadow : io; n_passwd : io; n_libc : libc; n_now : Z; n_uid : cstr -> Z; n_db : db; n_opens : bool }.

(** The password is stored, modules/pam_unix/pam_unix_passwd.c:470-483 and modules/pam_unix/unix_update.c:101-114: the old one is saved, then the
    hash goes to one of the files; [shadow] is UNIX_SHADOW or doshadow. *)
Definition store (E : env) (d : disk) (pw : pwent) (forwho : cstr) (fromwhat : option cstr) (towhat : cstr) (shadow : bool) (remember : Z) : res (Z * disk * list step) :=
  let w := match fromwhat with Some _ => if remember <? 0 then [] else [Write OPASSWD] | None => [] end in
  bind (save_old (n_save E) (option_map (fun _ => n_uid E forwho) (getpw (n_db E) forwho)) d forwho fromwhat remember) (fun '(r, d) =>
  if negb (r =? 0) then Ok (PAM_AUTHTOK_ERR, d, w)
  else if shadow || is_shadowed pw then
    bind (update_shadow (n_shadow E) (n_libc E) (n_now E) d forwho towhat) (fun '(r, d) =>
    if (r =? PAM_SUCCESS) && negb (is_shadowed pw) then
      bind (update_passwd (n_passwd E) (n_libc E) d forwho (lit "x")) (fun '(r, d) => Ok (r, d, (w ++ [Write SHADOW_FILE; Write PASSWD])%list))
    else Ok (r, d, (w ++ [Write SHADOW_FILE])%list))
  else
    bind (update_passwd (n_passwd E) (n_libc E) d forwho towhat) (fun '(r, d) => Ok (r, d, (w ++ [Write PASSWD])%list))).

(** The line _unix_getpwnam looks for, modules/pam_unix/support.c:357-384, without NIS, cut at the end. *)
Definition files_line (E : env) (d : disk) (name : cstr) : option cstr :=
  if existsb (Ascii.eqb ":"%char) name then None
  else match (if n_opens E then d PASSWD else None) with
  | None => None
  | Some f => option_map (fun l => rtrim (Str_Model.cut l)) (find (fun l => is_prefix (name ++ lit ":") l) (lines_of (Pwhist_Model.f_data f)))
  end.
(** The rest of _unix_getpwnam, modules/pam_unix/support.c:410-475: whether *ret is not NULL. [mem] covers the allocations and pam_set_data. *)
Definition entry_ok (mem : bool) (line : cstr) : bool :=
  match fields ":"%char line with
  | _ :: _ :: uid :: gid :: _ :: _ :: _ :: _ =>
      let num s := match strtol s with (_, Some []) => true | _ => false end in
      mem && num uid && num gid
  | _ => false
  end.

(** _do_setpass, modules/pam_unix/pam_unix_passwd.c:367-492, without NIS: a user who is not in /etc/passwd leaves retval 0. *)
Definition do_setpass (E : env) (d : disk) (forwho : cstr) (fromwhat : option cstr) (towhat : cstr) (ctrl : N) (remember : Z) : res (Z * disk * list step) :=
  match getpw (n_db E) forwho with
  | None => Ok (PAM_AUTHTOK_ERR, d, [Unlock])
  | Some pw =>
      match files_line E d forwho with
      | None => Ok (PAM_SUCCESS, d, [Unlock])
      | Some _ =>
          bind (store E d pw forwho fromwhat towhat (on SHADOW ctrl) remember) (fun '(r, d, w) => Ok (r, d, (w ++ [Unlock])%list))
      end
  end.

(** _unix_verify_shadow, modules/pam_unix/pam_unix_passwd.c:494-525; helper run 0. *)
Definition verify_shadow (e : uenv) (b : db) (ctrl : N) (user : cstr) : res Z :=
  match account_info (e_try e) (e_priv e) b user with
  | (rv, _, sp) =>
    if rv =? PAM_USER_UNKNOWN then Ok rv
    else if (rv =? PAM_SUCCESS) && match sp with None => true | Some _ => false end then Ok PAM_SUCCESS
    else
      let finish rv :=
        if on EXPIRED_ONLY ctrl then (if rv =? PAM_NEW_AUTHTOK_REQD then PAM_SUCCESS else PAM_AUTHTOK_ERR)
        else if on IAMROOT ctrl || (rv =? PAM_NEW_AUTHTOK_REQD) then PAM_SUCCESS
        else rv in
      if rv =? RUN_HELPER then
        bind (run_verify crypt md5_good md5_broken fuel (e_how e 0%nat) b (e_now e) user) (fun '(rv, _) =>
        if (rv =? PAM_AUTH_ERR) || (rv =? PAM_USER_UNKNOWN) then Ok rv else Ok (finish rv))
      else match sp with
           | Some s => if rv =? PAM_SUCCESS then bind (shadow_expiry (e_now e) s) (fun '(rv, _) => Ok (finish rv)) else Ok (finish rv)
           | None => Ok (finish rv)
           end
  end.

(** _pam_unix_approve_pass, modules/pam_unix/pam_unix_passwd.c:527-586, for a handle whose PAM_USER is [user]; [opens] and [mem] as in check_old. *)
Definition approve (opens : bool) (mem : nat -> bool) (d : disk) (ctrl : N) (user : cstr) (old new : option cstr) (minlen : Z) : Z :=
  match new with
  | None => PAM_AUTHTOK_ERR
  | Some new =>
      if match old with Some o => streq o new | None => false end then PAM_AUTHTOK_ERR
      else if (512 <? length new)%nat then PAM_AUTHTOK_ERR
      else if off IAMROOT ctrl then
        let short := Z.of_nat (length new) <? minlen in
        if on REMEMBER ctrl then
          let r := check_old opens mem d user new in
          if r =? PAM_ABORT then r
          else if (r =? PAM_AUTHTOK_ERR) || short then PAM_AUTHTOK_ERR
          else r
        else if short then PAM_AUTHTOK_ERR else PAM_SUCCESS
      else PAM_SUCCESS
  end.

(** Circumstances of a call of pam_sm_chauthtok: what pam_get_user gives; memory in _unix_getpwnam; what pam_info returns; the old password asked
    for; the item PAM_OLDAUTHTOK; the new passwords asked for, one after the other; lock_pwdf; the circumstances of the calls of Unix_Model:
    blank password 0, old password 1 and 3, age 2 and 4; failures noted before; fopen and memory while the old passwords are compared, call by
    call; the random bytes, the salt and the memory for the new hash. modules/pam_unix/pam_unix_passwd.c:588-859. *)
Record menv := mkMenv { m_user : Z * cstr; m_mem : bool; m_info : Z; m_old : Z * cstr; m_item : Z * option cstr; m_new : nat -> Z * cstr; m_lock : bool;
  m_e : nat -> uenv; m_fail : failures; m_opens : nat -> bool; m_cmp : nat -> nat -> bool; m_rnd : nat -> Z; m_salt : cstr -> Z -> cstr; m_hash : bool }.

(** The loop that asks for a new password, modules/pam_unix/pam_unix_passwd.c:720-757; [more] further turns, this is turn [k]. The password
    agreed on, or the value to return. *)
Fixpoint ask_new (M : menv) (d : disk) (ctrl : N) (user : cstr) (old : option cstr) (minlen : Z) (k more : nat) : Z + cstr :=
  match m_new M k with
  | (rv, p) =>
    if negb (rv =? PAM_SUCCESS) then inl rv
    else
      let new := match p with [] => None | _ => Some p end in
      let rv := approve (m_opens M k) (m_cmp M k) d ctrl user old new minlen in
      if rv =? PAM_SUCCESS then inr p
      else match more with O => inl rv | S more => ask_new M d ctrl user old minlen (S k) more end
  end.

(** pam_sm_chauthtok, modules/pam_unix/pam_unix_passwd.c:588-859, after _set_ctrl gave [ctrl] and the numbers [v]. A number never set is what it
    was before (598-600). *)
Definition chauthtok (E : env) (M : menv) (d : disk) (ctrl : N) (v : vals) : res (Z * disk * list step) :=
  let minlen := match v_minlen v with Some n => n | None => 0 end in
  let remember := match v_remember v with Some n => n | None => -1 end in
  let rounds := match v_rounds v with Some n => n | None => 0 end in
  let ret (rv : Z) := Ok (rv, d, []) in
  let '(urv, user) := m_user M in
  if negb (urv =? PAM_SUCCESS) then ret urv
  else if match user with c :: _ => Ascii.eqb c "-"%char || Ascii.eqb c "+"%char | [] => false end then ret PAM_USER_UNKNOWN
  else match files_line E d user with
  | None => ret PAM_USER_UNKNOWN
  | Some line =>
    if negb (entry_ok (m_mem M) line) then ret PAM_USER_UNKNOWN
    else
      let ctrl := if on NONULL ctrl then set NULLOK ctrl else ctrl in
      if on PRELIM ctrl then
        bind (blankpasswd crypt md5_good md5_broken fuel (m_e M 0%nat) (n_db E) ctrl user) (fun blank =>
        if (blank : bool) then ret PAM_SUCCESS
        else
          bind (if off IAMROOT ctrl then
                  if off QUIET_ ctrl && negb (m_info M =? PAM_SUCCESS) then Ok (m_info M)
                  else
                    let '(orv, old) := m_old M in
                    if negb (orv =? PAM_SUCCESS) then Ok orv
                    else bind (verify_password crypt md5_good md5_broken fuel (m_e M 1%nat) (n_db E) ctrl (m_fail M) user old) (fun '(rv, _) => Ok rv)
                else Ok PAM_SUCCESS) (fun rv =>
          if negb (rv =? PAM_SUCCESS) then ret rv
          else
            bind (verify_shadow (m_e M 2%nat) (n_db E) ctrl user) (fun rv =>
            if (rv =? PAM_AUTHTOK_ERR) && off EXPIRED_ONLY ctrl && on IAMROOT ctrl then ret PAM_SUCCESS else ret rv)))
      else if on UPDATE ctrl then
        let '(irv, old) := m_item M in
        if negb (irv =? PAM_SUCCESS) then ret irv
        else match ask_new M d ctrl user old minlen 0 (if on USE_AUTHTOK ctrl || on USE_FIRST_PASS ctrl then 0 else 2) with
        | inl rv => ret rv
        | inr new =>
            if negb (m_lock M) then ret PAM_AUTHTOK_LOCK_BUSY
            else
              let stop (rv : Z) := Ok (rv, d, [Lock; Unlock]) in
              bind (match old with
                    | Some old => bind (verify_password crypt md5_good md5_broken fuel (m_e M 3%nat) (n_db E) ctrl (m_fail M) user old) (fun '(rv, _) => Ok rv)
                    | None => Ok PAM_SUCCESS
                    end) (fun rv =>
              if negb (rv =? PAM_SUCCESS) then stop rv
              else
                bind (verify_shadow (m_e M 4%nat) (n_db E) ctrl user) (fun rv =>
                if negb (rv =? PAM_SUCCESS) then stop rv
                else
                  let rv := approve (m_opens M 3%nat) (m_cmp M 3%nat) d ctrl user old (match new with [] => None | _ => Some new end) minlen in
                  if negb (rv =? PAM_SUCCESS) then stop rv
                  else
                    bind (create_hash (m_rnd M) (m_salt M) (m_hash M) new ctrl rounds) (fun h =>
                    match h with
                    | None => stop PAM_BUF_ERR
                    | Some h => bind (do_setpass E d user old h ctrl remember) (fun '(r, d, w) => Ok (r, d, Lock :: w))
                    end)))
        end
      else ret PAM_ABORT
  end.

(** * unix_update *)
(** What unix_update is started with: whether stdin is a terminal, the real and effective uid, lock_pwdf, memory for the check of the password;
    what the buffers pass and towhat hold before, modules/pam_unix/unix_update.c:41-58, 140-186. *)
Record upd := mkUpd { u_tty : bool; u_ruid : Z; u_euid : Z; u_lock : bool; u_mem : bool; u_pass : list ascii; u_towhat : list ascii }.
(** atoi, C standard 7.24.1.2, as glibc does it: the low 32 bits of strtol. *)
Definition atoi (s : cstr) : Z := Pwhist_Model.to_int (fst (strtol s)).
(** set_password, modules/pam_unix/unix_update.c:41-138. [s] is what arrives on stdin. *)
Definition set_password (E : env) (U : upd) (d : disk) (forwho shadow remember : cstr) (s : src) : res (Z * disk * list step) :=
  bind (read_passwords fuel 2 [u_pass U; u_towhat U] s) (fun '(n, bufs, _) =>
  match bufs with
  | [p; t] =>
    if negb (n =? 2)%nat then Ok (PAM_AUTHTOK_ERR, d, [])
    else if negb (u_lock U) then Ok (PAM_AUTHTOK_LOCK_BUSY, d, [])
    else
      let pass := Str_Model.cut p in
      let towhat := Str_Model.cut t in
      let stop := Ok (PAM_AUTHTOK_ERR, d, [Lock; Unlock]) in
      match getpw (n_db E) forwho with
      | None => stop
      | Some pw =>
        bind (if u_ruid U =? 0 then Ok true
              else if negb (n_uid E forwho =? u_ruid U) then Ok false
              else bind (helper_verify crypt md5_good md5_broken (u_mem U) true (n_db E) forwho pass true) (fun rv => Ok (rv =? PAM_SUCCESS))) (fun may =>
        if negb (may : bool) then stop
        else
          bind (store E d pw forwho (Some pass) towhat (negb (atoi shadow =? 0)) (atoi remember)) (fun '(r, d, w) =>
          Ok ((if r =? PAM_SUCCESS then PAM_SUCCESS else PAM_AUTHTOK_ERR), d, (Lock :: w ++ [Unlock])%list)))
      end
  | _ => UB
  end).
(** main of unix_update, modules/pam_unix/unix_update.c:140-186, from the arguments after argv[0]: the exit status. *)
Definition unix_update (E : env) (U : upd) (d : disk) (argv : list cstr) (s : src) : res (Z * disk * list step) :=
  match argv with
  | [user; option; shadow; remember] =>
      if u_tty U then Ok (PAM_SYSTEM_ERR, d, [])
      else if negb (u_euid U =? 0) then Ok (PAM_CRED_INSUFFICIENT, d, [])
      else if streq option (lit "update") then set_password E U d user shadow remember s
      else Ok (PAM_SYSTEM_ERR, d, [])
  | _ => Ok (PAM_SYSTEM_ERR, d, [])
  end.
End Set_.
