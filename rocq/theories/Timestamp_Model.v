(** pam_timestamp: modules/pam_timestamp/pam_timestamp.c and the key file of hmacsha1.c, without OpenSSL and logind (utmp is
    read), on a 64-bit little-endian machine. *)
From Coq Require Import String Ascii List Arith NArith ZArith Bool.
From Verif Require Import Base Num_Model Str_Model Sha1_Model.
Import ListNotations.
Local Open Scope Z_scope.

(** A value of type time_t or long: outside the range signed arithmetic is undefined. *)
Definition lng (z : Z) : res Z := if (LONG_MIN <=? z) && (z <=? LONG_MAX) then Ok z else UB.

(** TIMESTAMPDIR, modules/pam_timestamp/pam_timestamp.c:83; _PATH_VARRUN is "/var/run/". *)
Definition TIMESTAMPDIR : cstr := lit "/var/run/pam_timestamp".
(** TIMESTAMPKEY, modules/pam_timestamp/pam_timestamp.c:84. *)
Definition TIMESTAMPKEY : cstr := lit "/var/run/pam_timestamp/_pam_timestamp_key".
(** BUFLEN, modules/pam_timestamp/pam_timestamp.c:86-94: PATH_MAX (4096) is larger than LINE_MAX (2048). *)
Definition BUFLEN : Z := 4096.

(** The kind of a file as lstat tells it. *)
Inductive kind := KDir | KLink | KReg | KOther.
(** The part of struct stat used in modules/pam_timestamp/pam_timestamp.c:116-151. *)
Record stat := mkStat { st_kind : kind; st_uid : Z; st_gid : Z; st_perm : Z }.
(** The outcome of lstat(2): no such file, another error, or the information. *)
Inductive lres := LNoent | LErr | LStat (s : stat).

(** The tests of one directory, modules/pam_timestamp/pam_timestamp.c:122-151: true when it is refused. *)
Definition dir_bad (s : stat) : bool :=
  negb (match st_kind s with KDir => true | _ => false end) || match st_kind s with KLink => true | _ => false end ||
  negb (st_uid s =? 0) || negb (st_gid s =? 0) || negb (Z.land (st_perm s) 18 =? 0).

(** The loop of check_dir_perms, modules/pam_timestamp/pam_timestamp.c:110-153. [i]: the index; [done]: scratch so far;
    [st]: the contents of the variable st, None before it is first written. lstat failing with ENOENT leaves it alone. The
    array scratch is not terminated when all its bytes are filled. *)
Fixpoint dir_loop (lstat : cstr -> lres) (i : Z) (done rest : cstr) (st : option stat) : res Z :=
  match rest with
  | [] => Ok PAM_SUCCESS
  | c :: rest' =>
    if BUFLEN <=? i then Ok PAM_SUCCESS
    else
      let scratch := (done ++ [c])%list in
      if Ascii.eqb c "/"%char || match rest' with [] => true | _ => false end then
        if i =? BUFLEN - 1 then UB
        else match lstat scratch with
        | LErr => Ok PAM_AUTH_ERR
        | l => match (match l with LStat s => Some s | _ => st end) with
               | None => UB
               | Some s => if dir_bad s then Ok PAM_AUTH_ERR else dir_loop lstat (i + 1) scratch rest' (Some s)
               end
        end
      else dir_loop lstat (i + 1) scratch rest' st
  end.
(** check_dir_perms, modules/pam_timestamp/pam_timestamp.c:100-155. *)
Definition check_dir_perms (lstat : cstr -> lres) (tdir : cstr) : res Z :=
  match tdir with [] => Ok PAM_AUTH_ERR | _ => dir_loop lstat 0 [] tdir None end.

(** strrchr(s, '/') + 1 for a string with a slash, modules/pam_timestamp/pam_timestamp.c:173; the string itself without one. *)
Fixpoint after_slash (s : cstr) : cstr :=
  match s with
  | [] => []
  | c :: s' => match strchr "/"%char s' with
               | Some _ => after_slash s'
               | None => if Ascii.eqb c "/"%char then s' else s
               end
  end.
(** check_tty, modules/pam_timestamp/pam_timestamp.c:157-180. *)
Definition check_tty (tty : option cstr) : option cstr :=
  match tty with
  | None | Some [] => None
  | Some t =>
    let ok := match strchr "/"%char t with Some _ => is_prefix (lit "/dev/") t | None => true end in
    if negb ok then None
    else let b := after_slash t in
         if match b with [] => true | _ => false end || streq b (lit ".") || streq b (lit "..") then None else Some b
  end.

(** format_timestamp_name, modules/pam_timestamp/pam_timestamp.c:182-197; pam_snprintf (libpam/include/pam_inline.h:166-178)
    fails when the name and its terminator do not fit. *)
Definition format_timestamp_name (len : Z) (tdir tty ruser user : cstr) : option cstr :=
  let name := if streq ruser user then (tdir ++ lit "/" ++ ruser ++ lit "/" ++ tty)%list
              else (tdir ++ lit "/" ++ ruser ++ lit "/" ++ tty ++ lit ":" ++ user)%list in
  if Z.of_nat (length name) <? len then Some name else None.

(** timestamp_good, modules/pam_timestamp/pam_timestamp.c:199-209. *)
Definition timestamp_good (then_ now interval : Z) : res Z :=
  bind (if then_ <=? now then bind (lng (now - then_)) (fun d => Ok (d <? interval)) else Ok false) (fun a =>
  bind (if a then Ok true
        else if now <? then_ then bind (lng (then_ - now)) (fun d => bind (lng (2 * interval)) (fun i => Ok (d <? i))) else Ok false) (fun a =>
  Ok (if a then PAM_SUCCESS else PAM_AUTH_ERR))).

(** A record of utmp, modules/pam_timestamp/pam_timestamp.c:231-253: whether it is of a user process, ut_user without what
    follows a NUL, and ut_tv.tv_sec, an int. *)
Record utent := mkUt { ut_proc : bool; ut_user : cstr; ut_sec : Z }.
(** zero_extend_signed_to_ull of a long and of an int, libpam/include/pam_inline.h:53-58. *)
Definition zext (bits v : Z) : Z := v mod 2 ^ bits.
(** One turn of the loop over utmp, modules/pam_timestamp/pam_timestamp.c:241-252; strncmp compares 32 bytes at most. *)
Definition older (ruser : cstr) (oldest : Z) (u : utent) : Z :=
  if negb (ut_proc u) then oldest
  else if negb (streq (firstn 32 ruser) (firstn 32 (ut_user u))) then oldest
  else if (oldest =? 0) || (zext 32 (ut_sec u) <? zext 64 oldest) then ut_sec u else oldest.
(** check_login_time, modules/pam_timestamp/pam_timestamp.c:211-259. *)
Definition check_login_time (utmp : list utent) (ruser : cstr) (timestamp : Z) : Z :=
  let oldest := fold_left (older ruser) utmp 0 in
  if (oldest =? 0) || (timestamp <? oldest) then PAM_AUTH_ERR else PAM_SUCCESS.

(** What a call of the module sees of its surroundings: the arguments, the result of pam_get_user, the items PAM_RUSER and
    PAM_TTY, the name of the real user (getpwuid(getuid())), the terminals of descriptors 0, 1 and 2 and the directories. *)
Record env := mkEnv {
  e_args : list cstr; e_user : option cstr; e_ruser : option cstr; e_tty : option cstr; e_own : option cstr;
  e_tty0 : option cstr; e_tty1 : option cstr; e_tty2 : option cstr; e_lstat : cstr -> lres }.

(** get_ruser, modules/pam_timestamp/pam_timestamp.c:262-298, with a buffer of BUFLEN bytes; None: -1. *)
Definition get_ruser (e : env) : option cstr :=
  let r := match e_ruser e with
           | None | Some [] => match e_own e with Some n => Some n | None => e_ruser e end
           | Some r => if streq r (lit ".") || streq r (lit "..") || match strchr "/"%char r with Some _ => true | None => false end then None else Some r
           end in
  match r with Some r => if BUFLEN <=? Z.of_nat (length r) then None else Some r | None => None end.

(** The value of the last argument "timestampdir=", modules/pam_timestamp/pam_timestamp.c:317-328. *)
Definition tdir_arg (tdir arg : cstr) : cstr := if is_prefix (lit "timestampdir=") arg then skipn 13 arg else tdir.
(** A string that is NULL or empty, e.g. modules/pam_timestamp/pam_timestamp.c:353. *)
Definition blank (s : option cstr) : bool := match s with None | Some [] => true | _ => false end.
(** The terminal, modules/pam_timestamp/pam_timestamp.c:347-365. *)
Definition tty_of (e : env) : option cstr :=
  if negb (blank (e_tty e)) then e_tty e
  else if negb (blank (e_tty0 e)) then e_tty0 e
  else if negb (blank (e_tty1 e)) then e_tty1 e
  else if negb (blank (e_tty2 e)) then e_tty2 e else Some (lit "unknown").
(** get_timestamp_name, modules/pam_timestamp/pam_timestamp.c:300-383, messages left out; None: not PAM_SUCCESS. *)
Definition get_timestamp_name (e : env) : res (option cstr) :=
  let tdir := fold_left tdir_arg (e_args e) TIMESTAMPDIR in
  bind (check_dir_perms (e_lstat e) tdir) (fun i =>
  if negb (i =? PAM_SUCCESS) then Ok None
  else match e_user e with
  | None | Some [] => Ok None
  | Some user =>
    match get_ruser e with
    | None | Some [] => Ok None
    | Some ruser =>
      match check_tty (tty_of e) with
      | None => Ok None
      | Some tty => Ok (format_timestamp_name BUFLEN tdir tty ruser user)
      end
    end
  end).

(** * Files *)
(** A file: its owner and group, whether it is regular, its contents in octets, the time it was last written. *)
Record file := mkFile { f_uid : Z; f_gid : Z; f_reg : bool; f_data : list Z; f_mtime : Z }.
(** The files by name. Two names for one file (links, "..") are not modelled, nor are changes during a call. *)
Definition files : Type := cstr -> option file.
(** [fs] with the file [p] replaced. *)
Definition put_file (fs : files) (p : cstr) (f : option file) : files := fun q => if streq p q then f else fs q.

(** The loops reading a file, modules/pam_timestamp/pam_timestamp.c:514-522 and hmacsha1.c:172-179: [n] octets are still
    wanted, [data] follows in the file, [cuts] are the results of the next reads (0: an error or an early end; when there are
    no more, the next read gives all there is). None: fewer octets than wanted. *)
Fixpoint read_loop (n : nat) (data : list Z) (cuts : list nat) : option (list Z) :=
  match n with
  | O => Some []
  | _ =>
    match cuts with
    | [] => if (n <=? length data)%nat then Some (firstn n data) else None
    | k :: cuts =>
      let l := firstn (Nat.min k n) data in
      match l with
      | [] => None
      | _ => match read_loop (n - length l) (skipn (length l) data) cuts with Some r => Some (l ++ r)%list | None => None end
      end
    end
  end.

(** How the system calls of hmac_key_create go: opening, fchown, opening /dev/urandom, malloc, the octets read from it, how
    many octets are written; [c_uid], [c_gid] and [c_now]: the owner of a new file and the time. *)
Record creation := mkCreation { c_open : bool; c_chown : bool; c_rand : bool; c_mem : bool; c_random : list Z; c_written : nat; c_uid : Z; c_gid : Z; c_now : Z }.
(** hmac_key_create, modules/pam_timestamp/hmacsha1.c:58-129, for the key file, which is 64 octets (MAXIMUM_KEY_SIZE) and to
    be owned by root; called only when there is no such file. *)
Definition hmac_key_create (c : creation) (fs : files) : files :=
  if negb (c_open c) then fs
  else if negb (c_chown c) then put_file fs TIMESTAMPKEY (Some (mkFile (c_uid c) (c_gid c) true [] (c_now c)))
  else
    let key := firstn 64 (c_random c) in
    put_file fs TIMESTAMPKEY (Some (mkFile 0 0 true
      (if negb (c_rand c) || negb (c_mem c) || (length key <? 64)%nat then [] else firstn (c_written c) key) (c_now c))).
(** How the system calls of hmac_key_read go: the first open (if the file exists), creation, the second open, fstat, malloc, the reads. *)
Record keyluck := mkKey { k_open : bool; k_create : creation; k_open2 : bool; k_stat : bool; k_mem : bool; k_cuts : list nat }.
(** hmac_key_read, modules/pam_timestamp/hmacsha1.c:131-192; None: *key stays NULL. malloc(0) is taken to succeed. *)
Definition hmac_key_read (k : keyluck) (fs : files) : files * option (list Z) :=
  let '(fs, opened) :=
    match fs TIMESTAMPKEY with
    | Some _ => (fs, k_open k)
    | None => let fs' := hmac_key_create (k_create k) fs in (fs', k_open2 k)
    end in
  match fs TIMESTAMPKEY with
  | Some f => if opened && k_stat k && k_mem k then (fs, read_loop (length (f_data f)) (f_data f) (k_cuts k)) else (fs, None)
  | None => (fs, None)
  end.
(** hmac_sha1_generate_file, modules/pam_timestamp/hmacsha1.c:268-289; [mem]: the malloc of the code succeeds. *)
Definition hmac_sha1_generate_file (k : keyluck) (mem : bool) (fs : files) (text : list Z) : res (files * option (list Z)) :=
  let '(fs, key) := hmac_key_read k fs in
  match key with
  | None => Ok (fs, None)
  | Some key => bind (hmac_sha1_generate mem key text) (fun mac => Ok (fs, mac))
  end.

(** The octets of a string. *)
Definition octets_of (s : cstr) : list Z := map (fun c => Z.of_N (N_of_ascii c)) s.
(** The eight octets of a time_t, as memmove copies them (little-endian), modules/pam_timestamp/pam_timestamp.c:687-688. *)
Definition time_octets (t : Z) : list Z := map (fun i => Z.land (Z.shiftr t (8 * Z.of_nat i)) 255) (seq 0 8).
(** The time_t of eight octets, modules/pam_timestamp/pam_timestamp.c:555. *)
Definition time_of (l : list Z) : Z :=
  let v := fold_right (fun x v => x + 256 * v) 0 (firstn 8 l) in if v <? 2 ^ 63 then v else v - 2 ^ 64.

(** The option timestamp_timeout=, modules/pam_timestamp/pam_timestamp.c:411-424. When there are no digits strtol sets p to
    the start of the string. *)
Definition timeout_arg (interval : Z) (arg : cstr) : Z :=
  if is_prefix (lit "timestamp_timeout=") arg then
    match strtol0 (skipn 18 arg) with
    | (v, Some []) => v
    | (_, Some _) => interval
    | (v, None) => match skipn 18 arg with [] => v | _ => interval end
    end
  else interval.

(** How the system calls of pam_sm_authenticate go, and the time and utmp. *)
Record auth := mkAuth { a_open : bool; a_stat : bool; a_mem : bool; a_cuts : list nat; a_key : keyluck; a_macmem : bool; a_utmp : list utent; a_now : Z }.
(** pam_sm_authenticate, modules/pam_timestamp/pam_timestamp.c:393-608: the result, and the files afterwards (the key file may
    be created). Messages left out. open(2) with O_NOFOLLOW is one more way [a_open] can be false. *)
Definition pam_sm_authenticate (e : env) (a : auth) (fs : files) : res (Z * files) :=
  let interval := fold_left timeout_arg (e_args e) 300 in
  bind (get_timestamp_name e) (fun name =>
  match name with
  | None => Ok (PAM_AUTH_ERR, fs)
  | Some path =>
    match fs path with
    | None => Ok (PAM_AUTH_ERR, fs)
    | Some f =>
      if negb (a_open a) || negb (a_stat a) then Ok (PAM_AUTH_ERR, fs)
      else if negb (f_uid f =? 0) || negb (f_gid f =? 0) then Ok (PAM_AUTH_ERR, fs)
      else if negb (f_reg f) then Ok (PAM_AUTH_ERR, fs)
      else if (length (f_data f) =? 0)%nat then Ok (PAM_AUTH_ERR, fs)
      else if negb (length (f_data f) =? length path + 1 + 8 + 20)%nat then Ok (PAM_AUTH_ERR, fs)
      else if negb (a_mem a) then Ok (PAM_BUF_ERR, fs)
      else match read_loop (length (f_data f)) (f_data f) (a_cuts a) with
      | None => Ok (PAM_AUTH_ERR, fs)
      | Some message =>
        let text := firstn (length path + 1 + 8) message in
        bind (hmac_sha1_generate_file (a_key a) (a_macmem a) fs text) (fun '(fs, mac) =>
        match mac with
        | None => Ok (PAM_AUTH_ERR, fs)
        | Some mac =>
          if negb (if list_eq_dec Z.eq_dec (octets_of path) (firstn (length path) message) then true else false) ||
             negb (if list_eq_dec Z.eq_dec mac (skipn (length path + 1 + 8) message) then true else false)
          then Ok (PAM_AUTH_ERR, fs)
          else
            let then_ := time_of (skipn (length path + 1) message) in
            match get_ruser e with
            | None => Ok (PAM_AUTH_ERR, fs)
            | Some ruser =>
              if negb (check_login_time (a_utmp a) ruser then_ =? PAM_SUCCESS) then Ok (PAM_AUTH_ERR, fs)
              else bind (timestamp_good then_ (a_now a) interval) (fun g => Ok (if g =? PAM_SUCCESS then PAM_SUCCESS else PAM_AUTH_ERR, fs))
            end
        end)
      end
    end
  end).

(** The directories the loop of modules/pam_timestamp/pam_timestamp.c:638-666 makes: the parts of the path before a slash
    other than a first character; [mkdir] says whether each exists already or is made and given to root. *)
Fixpoint mkdirs (mkdir : cstr -> bool) (done rest : cstr) : bool :=
  match rest with
  | [] => true
  | c :: rest' => (if Ascii.eqb c "/"%char && match done with [] => false | _ => true end then mkdir done else true) && mkdirs mkdir (done ++ [c]) rest'
  end.
(** How the system calls of pam_sm_open_session go: [o_uid], [o_gid]: the owner of a new file; [o_written]: the result of
    write (anything above the length counts as all). *)
Record sess := mkSess { o_mkdir : cstr -> bool; o_mem : bool; o_key : keyluck; o_macmem : bool; o_open : bool; o_uid : Z; o_gid : Z; o_chown : bool; o_written : nat; o_now : Z }.
(** pam_sm_open_session, modules/pam_timestamp/pam_timestamp.c:616-745; a file that is not regular is not changed in kind. The
    clock is read once. *)
Definition pam_sm_open_session (e : env) (o : sess) (fs : files) : res (Z * files) :=
  bind (get_timestamp_name e) (fun name =>
  match name with
  | None => Ok (PAM_SESSION_ERR, fs)
  | Some path =>
    if negb (mkdirs (o_mkdir o) [] path) then Ok (PAM_SESSION_ERR, fs)
    else if negb (o_mem o) then Ok (PAM_SESSION_ERR, fs)
    else
      let text := (octets_of path ++ 0 :: time_octets (o_now o))%list in
      bind (hmac_sha1_generate_file (o_key o) (o_macmem o) fs text) (fun '(fs, mac) =>
      match mac with
      | None => Ok (PAM_SESSION_ERR, fs)
      | Some mac =>
        let text := (text ++ mac)%list in
        if negb (o_open o) then Ok (PAM_SESSION_ERR, fs)
        else
          let f := match fs path with Some f => mkFile (f_uid f) (f_gid f) (f_reg f) [] (o_now o) | None => mkFile (o_uid o) (o_gid o) true [] (o_now o) end in
          if negb (o_chown o) then Ok (PAM_SESSION_ERR, put_file fs path (Some f))
          else
            let f := mkFile 0 0 (f_reg f) (firstn (o_written o) text) (o_now o) in
            Ok (if (o_written o <? length text)%nat then PAM_SESSION_ERR else PAM_SUCCESS, put_file fs path (Some f))
      end)
  end).

(** What pam_timestamp_check sees: how often -k and -d are given and whether another option is; the target user; whether the
    three descriptors are open; the effective uid is 0; the terminals; the invoking user's name; strdup succeeds; the
    directories, utmp and the time. *)
Record check := mkCheck { m_k : nat; m_d : nat; m_bad : bool; m_target : option cstr; m_stdio : bool; m_root : bool; m_tty0 : option cstr; m_tty1 : option cstr; m_tty2 : option cstr;
  m_own : option cstr; m_mem : bool; m_lstat : cstr -> lres; m_utmp : list utent; m_now : Z; m_unlink : bool }.
(** main of pam_timestamp_check, modules/pam_timestamp/pam_timestamp.c:758-917, one turn of its loop (with -d the number is
    printed and the turn repeated): the number and the files. unlink's failure is -1, of which exit keeps 255. *)
Definition check_main (m : check) (fs : files) : res (Z * files) :=
  if negb (m_stdio m) then Ok (3, fs)
  else if m_bad m then Ok (1, fs)
  else if (1 <? m_k m + m_d m)%nat then Ok (1, fs)
  else if negb (m_root m) then Ok (2, fs)
  else
    let tty := if negb (blank (m_tty0 m)) then m_tty0 m else if negb (blank (m_tty1 m)) then m_tty1 m
               else if negb (blank (m_tty2 m)) then m_tty2 m else Some (lit "unknown") in
    match m_own m with
    | None => Ok (4, fs)
    | Some user =>
      if negb (m_mem m) then Ok (4, fs)
      else
        let target := match m_target m with Some t => t | None => user end in
        if existsb (fun c => Ascii.eqb c "."%char || Ascii.eqb c "/"%char || Ascii.eqb c "%"%char) target then Ok (4, fs)
        else match check_tty tty with
        | None => Ok (6, fs)
        | Some tty =>
          match format_timestamp_name BUFLEN TIMESTAMPDIR tty user target with
          | None => Ok (4, fs)
          | Some path =>
            bind (check_dir_perms (m_lstat m) TIMESTAMPDIR) (fun i =>
            if negb (i =? PAM_SUCCESS) then Ok (5, fs)
            else if (0 <? m_k m)%nat then
              match fs path with
              | Some _ => if m_unlink m then Ok (0, put_file fs path None) else Ok (255, fs)
              | None => Ok (0, fs)
              end
            else match fs path with
            | None => Ok (7, fs)
            | Some f =>
              if negb (check_login_time (m_utmp m) user (f_mtime f) =? PAM_SUCCESS) then Ok (7, fs)
              else bind (timestamp_good (f_mtime f) (m_now m) 300) (fun g => Ok (if g =? PAM_SUCCESS then 0 else 7, fs))
            end)
          end
        end
    end.
