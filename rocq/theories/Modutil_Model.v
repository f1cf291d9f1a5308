(** Model of helper functions for modules: libpam/pam_modutil_check_user.c, pam_modutil_priv.c,
    pam_modutil_ingroup.c, pam_modutil_searchkey.c and pam_modutil_sanitize.c. *)
From Coq Require Import String Ascii List Arith ZArith Bool.
From Verif Require Import Base.
Import ListNotations.
Local Open Scope Z_scope.

(** ** pam_modutil_check_user_in_passwd *)
(** fgetc: the next byte, or None for EOF.  Simplification: a read error looks like the end of the file, as it
    does to the code. *)
Definition fgetc (f : list ascii) : option ascii * list ascii :=
  match f with [] => (None, []) | c :: f => (Some c, f) end.
(** c == EOF || c == newline. *)
Definition at_end (c : option ascii) : bool := match c with None => true | Some c => Ascii.eqb c c_nl end.

(** The comparison loop, libpam/pam_modutil_check_user.c:52-56: what is left of the name, the last character
    read, what is left of the file. *)
Fixpoint match_name (p : cstr) (c : option ascii) (f : list ascii) : cstr * option ascii * list ascii :=
  match p with
  | [] => ([], c, f)
  | x :: p' =>
    match fgetc f with
    | (None, f) => (p, None, f)
    | (Some ch, f) => if Ascii.eqb ch c_nl || negb (Ascii.eqb ch x) then (p, Some ch, f) else match_name p' (Some ch) f
    end
  end.

(** libpam/pam_modutil_check_user.c:69-70, once the character has been seen not to end the line. *)
Fixpoint to_line_end (f : list ascii) : option ascii * list ascii :=
  match f with
  | [] => (None, [])
  | c :: f => if Ascii.eqb c c_nl then (Some c, f) else to_line_end f
  end.

(** The loop over the lines, libpam/pam_modutil_check_user.c:45-73. *)
Fixpoint scan_lines (fuel : nat) (name : cstr) (c : option ascii) (rc : Z) (f : list ascii) : res Z :=
  match fuel with
  | O => OutOfFuel
  | S fu =>
    let '(p, c, f) := match_name name c f in
    let '(c, f) := if at_end c then (c, f) else fgetc f in
    let rc := match p, c with [], Some ch => if Ascii.eqb ch c_colon then PAM_SUCCESS else rc | _, _ => rc end in
    let '(c, f) := if at_end c then (c, f) else to_line_end f in
    match c with None => Ok rc | Some _ => scan_lines fu name c rc f end
  end.

(** pam_modutil_check_user_in_passwd, libpam/pam_modutil_check_user.c:8-77; the file is None when fopen fails. *)
Definition check_user (fuel : nat) (name : cstr) (file : option (list ascii)) : res Z :=
  match name with
  | [] => Ok PAM_SERVICE_ERR
  | _ => if existsb (Ascii.eqb c_colon) name then Ok PAM_PERM_DENIED
         else match file with
              | None => Ok PAM_SERVICE_ERR
              | Some f => scan_lines fuel name None PAM_PERM_DENIED f
              end
  end.

(** ** pam_modutil_search_key *)
(** getline: the next line with its newline, or None at the end of the file.  Simplification: allocation or read
    failures are not modelled (they look like the end of the file to the code). *)
Fixpoint getline (f : list ascii) : option (list ascii * list ascii) :=
  match f with
  | [] => None
  | c :: f => if Ascii.eqb c c_nl then Some ([c], f)
              else match getline f with None => Some ([c], []) | Some (l, f) => Some (c :: l, f) end
  end.
(** The bytes before the first one with property [p]. *)
Fixpoint until (p : ascii -> bool) (l : list ascii) : list ascii :=
  match l with [] => [] | c :: l => if p c then [] else c :: until p l end.
(** What is left after the bytes with property [p] at the start. *)
Fixpoint skip (p : ascii -> bool) (l : list ascii) : list ascii :=
  match l with [] => [] | c :: t => if p c then skip p t else l end.
(** The delimiters of strsep at libpam/pam_modutil_searchkey.c:90. *)
Definition key_delim (c : ascii) : bool := Ascii.eqb c c_space || Ascii.eqb c c_tab || Ascii.eqb c c_eq.

(** One line, libpam/pam_modutil_searchkey.c:79-95: key and value, None for an empty line.  The C string ends at
    the first NUL, and at the newline or comment sign. *)
Definition line_entry (l : list ascii) : option (cstr * cstr) :=
  let l := match rev l with c :: r => if Ascii.eqb c c_nl then rev r else l | [] => l end in
  let l := until (Ascii.eqb NUL) l in
  let l := until (Ascii.eqb c_hash) l in
  match skip isspace l with
  | [] => None
  | l => let k := until key_delim l in
         match skipn (length k) l with
         | [] => Some (k, [])
         | _ :: v => Some (k, skip (fun c => isspace c || Ascii.eqb c c_eq) v)
         end
  end.

(** pam_modutil_search_key, libpam/pam_modutil_searchkey.c:52-107, without USE_ECONF; the file is None when fopen
    fails; strdup succeeds. *)
Fixpoint search_lines (fuel : nat) (key : cstr) (f : list ascii) : res (option cstr) :=
  match fuel with
  | O => OutOfFuel
  | S fu =>
    match getline f with
    | None => Ok None
    | Some (l, f) =>
      match line_entry l with
      | None => search_lines fu key f
      | Some (k, v) => if streq (map tolower k) (map tolower key) then Ok (Some v) else search_lines fu key f
      end
    end
  end.
(** See above. *)
Definition search_key (fuel : nat) (file : option (list ascii)) (key : cstr) : res (option cstr) :=
  match file with None => Ok None | Some f => search_lines fuel key f end.

(** ** pam_modutil_user_in_group_* *)
(** NGROUPS_MIN and NGROUPS_MAX, libpam/pam_modutil_ingroup.c:16-17. *)
Definition NGROUPS_MIN : nat := 100.
(** NGROUPS_MAX, libpam/pam_modutil_ingroup.c:16-17. *)
Definition NGROUPS_LIMIT : Z := 65536.

(** getgrouplist (glibc): -1 and the number of groups when there is not enough room, else their number. *)
Definition getgrouplist (all : list Z) (room : nat) : option (list Z) * nat :=
  if (length all <=? room)%nat then (Some all, length all) else (None, length all).

(** checkgrouplist, libpam/pam_modutil_ingroup.c:19-44; [all] are the groups of the user as the database has them
    (the primary one included); [oom n]: malloc for [n] entries fails. *)
Fixpoint checkgrouplist (fuel : nat) (oom : nat -> bool) (all : list Z) (ngroups : nat) (target : Z) : res bool :=
  match fuel with
  | O => OutOfFuel
  | S f =>
    if oom ngroups then Ok false
    else match getgrouplist all ngroups with
    | (Some l, _) => Ok (existsb (Z.eqb target) l)
    | (None, n) => if ((0 <? n) && negb (n =? ngroups))%nat && (Z.of_nat n <=? NGROUPS_LIMIT)
                   then checkgrouplist f oom all n target else Ok false
    end
  end.

(** struct passwd and struct group, the members used. *)
Record passwd := mkPw { pw_name : cstr; pw_uid : Z; pw_gid : Z }.
(** struct group, the members used. *)
Record group := mkGr { gr_gid : Z; gr_mem : option (list cstr) }.

(** pam_modutil_user_in_group_common, libpam/pam_modutil_ingroup.c:47-78, with HAVE_GETGROUPLIST. *)
Definition user_in_group (fuel : nat) (oom : nat -> bool) (all : list Z) (pwd : option passwd) (grp : option group) : res bool :=
  match pwd with
  | None => Ok false
  | Some pw =>
    match grp with
    | None => Ok false
    | Some gr =>
      if pw_gid pw =? gr_gid gr then Ok true
      else if match gr_mem gr with None => false | Some l => existsb (streq (pw_name pw)) l end then Ok true
      else checkgrouplist fuel oom all NGROUPS_MIN (gr_gid gr)
    end
  end.

(** ** pam_modutil_drop_priv and pam_modutil_regain_priv *)
(** The credentials of the process, as far as setfsuid(2), setfsgid(2) and setgroups(2) look at them or change
    them.  (Changing the file system uid also changes the capabilities for files, not these two.) *)
Record cred := mkCred {
  ruid : Z; euid : Z; suid : Z; fsuid : Z;
  rgid : Z; egid : Z; sgid : Z; fsgid : Z;
  groups : list Z; cap_setuid : bool; cap_setgid : bool }.
(** The same process with another file system uid, gid, list of groups. *)
Definition with_fsuid (u : Z) (k : cred) : cred :=
  mkCred (ruid k) (euid k) (suid k) u (rgid k) (egid k) (sgid k) (fsgid k) (groups k) (cap_setuid k) (cap_setgid k).
(** The same process with another file system gid. *)
Definition with_fsgid (g : Z) (k : cred) : cred :=
  mkCred (ruid k) (euid k) (suid k) (fsuid k) (rgid k) (egid k) (sgid k) g (groups k) (cap_setuid k) (cap_setgid k).
(** The same process with another list of groups. *)
Definition with_groups (l : list Z) (k : cred) : cred :=
  mkCred (ruid k) (euid k) (suid k) (fsuid k) (rgid k) (egid k) (sgid k) (fsgid k) l (cap_setuid k) (cap_setgid k).

(** (uid_t) -1 is no valid id. *)
Definition valid_id (u : Z) : bool := (0 <=? u) && (u <? 4294967295).
(** setfsuid(2): the previous value; no change without permission. *)
Definition setfsuid (u : Z) (k : cred) : Z * cred :=
  (fsuid k, if valid_id u && (cap_setuid k || (u =? ruid k) || (u =? euid k) || (u =? suid k) || (u =? fsuid k)) then with_fsuid u k else k).
(** setfsgid(2). *)
Definition setfsgid (g : Z) (k : cred) : Z * cred :=
  (fsgid k, if valid_id g && (cap_setgid k || (g =? rgid k) || (g =? egid k) || (g =? sgid k) || (g =? fsgid k)) then with_fsgid g k else k).
(** setgroups(2): 0 or -1; [fail]: not for lack of permission (memory).  Simplification: the kernel may reorder the
    list. *)
Definition setgroups (fail : bool) (l : list Z) (k : cred) : Z * cred :=
  if fail || negb (cap_setgid k) then (-1, k) else (0, with_groups l k).
(** initgroups(3): the database gives the list, or fails; then setgroups. *)
Definition initgroups (db : option (list Z)) (fail : bool) (k : cred) : Z * cred :=
  match db with None => (-1, k) | Some l => setgroups fail l k end.

(** change_uid, libpam/pam_modutil_priv.c:23-29: the result, *save, the credentials. *)
Definition change_uid (u : Z) (k : cred) : Z * Z * cred :=
  let '(tmp, k) := setfsuid u k in
  let '(now, k) := setfsuid u k in
  (if now =? u then 0 else -1, tmp, k).
(** change_gid, libpam/pam_modutil_priv.c:30-36. *)
Definition change_gid (g : Z) (k : cred) : Z * Z * cred :=
  let '(tmp, k) := setfsgid g k in
  let '(now, k) := setfsgid g k in
  (if now =? g then 0 else -1, tmp, k).

(** PRIV_MAGIC and PRIV_MAGIC_DONOTHING, libpam/pam_modutil_priv.c:49-50; the second is stored in an int. *)
Definition PRIV_MAGIC : Z := 268697610.
(** PRIV_MAGIC_DONOTHING, libpam/pam_modutil_priv.c:49-50, converted to int. *)
Definition PRIV_DONOTHING : Z := 3735879690 - 4294967296.

(** struct pam_modutil_privs, libpam/include/security/pam_modutil.h:114-121; the array pointed to by grplist as a
    list (None = NULL). *)
Record privs := mkPrivs { grplist : option (list Z); number : Z; allocated : bool; old_gid : Z; old_uid : Z; dropped : Z }.
(** PAM_MODUTIL_DEF_PRIVS, libpam/include/security/pam_modutil.h:124-126. *)
Definition def_privs (junk : list Z) : privs := mkPrivs (Some junk) 64 false (-1) (-1) 0.

(** cleanup, libpam/pam_modutil_priv.c:38-47 (the memory freed is not modelled). *)
Definition cleanup (p : privs) : privs := mkPrivs None 0 false (old_gid p) (old_uid p) (dropped p).

(** What the system does during one call: which calls fail for reasons other than permissions. *)
Record psys := mkSys {
  y_count_fails : bool;              (* getgroups(0, NULL) *)
  y_oom : bool;                      (* calloc *)
  y_get_fails : bool;                (* getgroups *)
  y_db : option (list Z);            (* the groups of the user, None: initgroups fails *)
  y_init_fails : bool;               (* setgroups in initgroups *)
  y_clear_fails : bool;              (* setgroups(0, NULL) *)
  y_restore_fails : bool }.          (* setgroups of the saved list *)

(** getgroups(n, list) with n at least the number of groups: the list written to the start of the array;
    None when the array is smaller (a write outside it). *)
Definition write_groups (l : list Z) (array : option (list Z)) : option (list Z) :=
  match array with
  | None => if (length l =? 0)%nat then Some [] else None
  | Some a => if (length l <=? length a)%nat then Some (l ++ skipn (length l) a) else None
  end.

(** setgroups(p->number_of_groups, p->grplist); None when it reads outside the array. *)
Definition set_saved (fail : bool) (p : privs) (k : cred) : option (Z * cred) :=
  match grplist p with
  | None => if number p =? 0 then Some (setgroups fail [] k) else None
  | Some a => if number p <=? Z.of_nat (length a) then Some (setgroups fail (firstn (Z.to_nat (number p)) a) k) else None
  end.

(** pam_modutil_drop_priv, libpam/pam_modutil_priv.c:52-141. *)
Definition drop_priv (y : psys) (p : privs) (pw : passwd) (k : cred) : res (Z * privs * cred) :=
  if negb (dropped p =? 0) then Ok (-1, p, k)
  else if negb (euid k =? 0) || (pw_uid pw =? 0) then Ok (0, mkPrivs (grplist p) (number p) (allocated p) (old_gid p) (old_uid p) PRIV_DONOTHING, k)
  else if match grplist p with None => true | Some _ => false end || (number p <=? 0) then Ok (-1, p, k)
  else if y_count_fails y then Ok (-1, p, k)
  else
    let res := Z.of_nat (length (groups k)) in
    let p := mkPrivs (grplist p) (number p) false (old_gid p) (old_uid p) (dropped p) in
    if (number p <? res) && y_oom y then Ok (-1, cleanup (mkPrivs None (number p) (allocated p) (old_gid p) (old_uid p) (dropped p)), k)
    else
      let p := if number p <? res then mkPrivs (Some (repeat 0 (length (groups k)))) res true (old_gid p) (old_uid p) (dropped p) else p in
      if y_get_fails y then Ok (-1, cleanup p, k)
      else match write_groups (groups k) (grplist p) with
      | None => UB
      | Some a =>
        let p := mkPrivs (Some a) res (allocated p) (old_gid p) (old_uid p) (dropped p) in
        let '(r, k1) := initgroups (y_db y) (y_init_fails y) k in
        let '(r, k1) := if negb (r =? 0) then setgroups (y_clear_fails y) [] k1 else (0, k1) in
        if negb (r =? 0) then Ok (-1, cleanup p, k1)
        else
          let '(rg, save, k2) := change_gid (pw_gid pw) k1 in
          let p := mkPrivs (grplist p) (number p) (allocated p) save (old_uid p) (dropped p) in
          if negb (rg =? 0) then
            match set_saved (y_restore_fails y) p k2 with None => UB | Some (_, k3) => Ok (-1, cleanup p, k3) end
          else
            let '(ru, save, k3) := change_uid (pw_uid pw) k2 in
            let p := mkPrivs (grplist p) (number p) (allocated p) (old_gid p) save (dropped p) in
            if negb (ru =? 0) then
              let '(_, _, k4) := change_gid (old_gid p) k3 in
              match set_saved (y_restore_fails y) p k4 with None => UB | Some (_, k5) => Ok (-1, cleanup p, k5) end
            else Ok (0, mkPrivs (grplist p) (number p) (allocated p) (old_gid p) (old_uid p) PRIV_MAGIC, k3)
      end.

(** pam_modutil_regain_priv, libpam/pam_modutil_priv.c:143-179; [fail]: setgroups fails for lack of memory. *)
Definition regain_priv (fail : bool) (p : privs) (k : cred) : res (Z * privs * cred) :=
  if dropped p =? PRIV_DONOTHING then Ok (0, mkPrivs (grplist p) (number p) (allocated p) (old_gid p) (old_uid p) 0, k)
  else if negb (dropped p =? PRIV_MAGIC) then Ok (-1, p, k)
  else
    let '(r, _, k) := change_uid (old_uid p) k in
    if negb (r =? 0) then Ok (-1, cleanup p, k)
    else
      let '(r, _, k) := change_gid (old_gid p) k in
      if negb (r =? 0) then Ok (-1, cleanup p, k)
      else match set_saved fail p k with
      | None => UB
      | Some (r, k) =>
        if negb (r =? 0) then Ok (-1, cleanup p, k)
        else Ok (0, cleanup (mkPrivs (grplist p) (number p) (allocated p) (old_gid p) (old_uid p) 0), k)
      end.

(** ** pam_modutil_sanitize_helper_fds *)
(** What a descriptor refers to: an end of a pipe created by the function (numbered), /dev/null opened for
    writing, or something that was there before. *)
Inductive obj := PipeRead (n : nat) | PipeWrite (n : nat) | DevNull | Before (n : nat).
(** The descriptor table and the number of pipes created so far. *)
Record fds := mkFds { table : nat -> option obj; pipes : nat }.
(** The table with one descriptor changed. *)
Definition set_fd (fd : nat) (o : option obj) (t : fds) : fds :=
  mkFds (fun n => if (n =? fd)%nat then o else table t n) (pipes t).
(** The lowest free descriptor that is at least [n], found among the next [tries]. *)
Fixpoint lowest (tries n : nat) (t : nat -> option obj) : option nat :=
  match tries with
  | O => None
  | S k => match t n with None => Some n | Some _ => lowest k (S n) t end
  end.

(** The limit on open descriptors: above it allocation fails (EMFILE). *)
Definition new_fd (limit : nat) (o : obj) (t : fds) : option (nat * fds) :=
  match lowest limit 0 (table t) with None => None | Some n => Some (n, set_fd n (Some o) t) end.

(** pipe(2): read end and write end; None is failure. *)
Definition pipe (limit : nat) (fail : bool) (t : fds) : option (nat * nat * fds) :=
  if fail then None
  else match new_fd limit (PipeRead (pipes t)) t with
       | None => None
       | Some (r, t1) => match new_fd limit (PipeWrite (pipes t)) t1 with
                         | None => None
                         | Some (w, t2) => Some (r, w, mkFds (table t2) (S (pipes t2)))
                         end
       end.

(** PAM_MODUTIL_IGNORE_FD, PIPE_FD, NULL_FD, libpam/include/security/pam_modutil.h:137-141. *)
Inductive mode := MIgnore | MPipe | MNull.
(** What fails: pipe, open, dup2 (by the descriptor concerned). *)
Record fsys := mkFsys { f_limit : nat; f_pipe : nat -> bool; f_open : nat -> bool; f_dup : nat -> bool }.

(** dup2(old, new) with [old] open: a failure changes nothing. *)
Definition dup2 (fail : bool) (old new : nat) (t : fds) : bool * fds :=
  if fail then (false, t) else (true, set_fd new (table t old) t).

(** redirect_in_pipe, libpam/pam_modutil_sanitize.c:22-44; the result is whether it succeeded. *)
Definition redirect_in_pipe (y : fsys) (fd : nat) (t : fds) : bool * fds :=
  match pipe (f_limit y) (f_pipe y fd) t with
  | None => (false, t)
  | Some (r, w, t) =>
    let t := set_fd w None t in
    if (r =? fd)%nat then (true, t)
    else let '(ok, t) := dup2 (f_dup y fd) r fd t in (ok, set_fd r None t)
  end.

(** redirect_out_null, libpam/pam_modutil_sanitize.c:50-70. *)
Definition redirect_out_null (y : fsys) (fd : nat) (t : fds) : bool * fds :=
  match (if f_open y fd then None else new_fd (f_limit y) DevNull t) with
  | None => (false, t)
  | Some (n, t) => if (n =? fd)%nat then (true, t)
                   else let '(ok, t) := dup2 (f_dup y fd) n fd t in (ok, set_fd n None t)
  end.

(** redirect_out, libpam/pam_modutil_sanitize.c:72-89. *)
Definition redirect_out (y : fsys) (m : mode) (fd : nat) (t : fds) : bool * fds :=
  match m with MPipe => redirect_in_pipe y fd t | MNull => redirect_out_null y fd t | MIgnore => (true, t) end.

(** The highest descriptor close_fds_iteratively closes, libpam/pam_modutil_sanitize.c:91-115; [rlim] is the hard
    limit, None when getrlimit fails. *)
Definition highest (rlim : option Z) : Z :=
  match rlim with
  | None => 65535
  | Some m => if 65535 <? m then 65535 else if m <? 20 then 20 else m - 1
  end.
(** close_fds, libpam/pam_modutil_sanitize.c:118-127; [range]: close_range(2) works. *)
Definition close_fds (range : bool) (rlim : option Z) (t : fds) : fds :=
  mkFds (fun n => if (2 <? n)%nat && (range || (Z.of_nat n <=? highest rlim)) then None else table t n) (pipes t).

(** pam_modutil_sanitize_helper_fds, libpam/pam_modutil_sanitize.c:129-162. *)
Definition sanitize_fds (y : fsys) (range : bool) (rlim : option Z) (m0 m1 m2 : mode) (t : fds) : bool * fds :=
  let '(ok, t) := match m0 with MIgnore => (true, t) | _ => redirect_in_pipe y 0 t end in
  if negb ok then (false, t)
  else
    let '(ok, t) := redirect_out y m1 1 t in
    if negb ok then (false, t)
    else
      let '(ok, t) :=
        match m2, m1 with
        | MPipe, MPipe | MNull, MNull => dup2 (f_dup y 2) 1 2 t
        | _, _ => redirect_out y m2 2 t
        end in
      if negb ok then (false, t) else (true, close_fds range rlim t).
