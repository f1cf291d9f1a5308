(** Model of pam_mkhomedir and its helper: modules/pam_mkhomedir/pam_mkhomedir.c and modules/pam_mkhomedir/mkhomedir_helper.c. *)
From Coq Require Import String Ascii List Arith ZArith Bool.
From Verif Require Import Base Num_Model Str_Model Opt_Model.
Import ListNotations.

(** ** What is copied *)
(** A file of the skeleton directory as lstat(2) finds it: a directory with its entries in the order of readdir(3), a regular file with its mode and
    contents, a link with its target and what is found by following it, anything else. Nobody changes the skeleton meanwhile. *)
Inductive src := SDir (es : list (cstr * src)) | SFile (mode : Z) (text : list ascii) | SLink (target : cstr) (to : src) | SOther.
(** What opendir(3) finds, following links. *)
Fixpoint opened (s : src) : option (list (cstr * src)) :=
  match s with SDir es => Some es | SLink _ to => opened to | _ => None end.
(** An entry of a directory. *)
Fixpoint entry (n : cstr) (es : list (cstr * src)) : option src :=
  match es with [] => None | (m, s) :: es => if streq m n then Some s else entry n es end.
(** How deep a file of the skeleton goes. *)
Fixpoint height (s : src) : nat :=
  match s with SDir es => S (fold_right (fun e m => Nat.max (height (snd e)) m) 0%nat es) | SLink _ to => S (height to) | _ => 0%nat end.

(** ** Where it is copied to *)
(** The file system below the parent of the home directory: a path is a list of names. *)
Definition path := list cstr.
Inductive kindof := KDir | KFile (text : list ascii) | KLink (target : cstr).
Record node := mkNode { n_kind : kindof; n_mode : Z; n_uid : Z; n_gid : Z }.
Definition files := path -> option node.
(** The calls that change it, by their effect. *)
Inductive event := EMkdir (p : path) | ESymlink (p : path) (target : cstr) | ECreate (p : path) | EChmod (p : path) (m : Z) | EChown (p : path) (u g : Z) | EWrite (p : path) (text : list ascii).
Fixpoint peq (p q : path) : bool :=
  match p, q with [] , [] => true | a :: p, b :: q => streq a b && peq p q | _, _ => false end.
Definition set_node (p : path) (n : node) (f : files) : files := fun q => if peq q p then Some n else f q.
(** chown(2) on Linux: the set-user-ID bit of a regular file is cleared, and the set-group-ID bit if the group may execute it. *)
Definition drop_bits (k : kindof) (m : Z) : Z :=
  match k with KFile _ => let m := Z.land m 2047 in if Z.testbit m 3 then Z.land m 1023 else m | _ => m end.
(** The effect of a call on the files. The helper runs as root: what it makes is root's; mkdirat(2) is called with 0700, openat(2) with 0600; the
    umask of the process is taken not to clear the owner's bits. *)
Definition apply (e : event) (f : files) : files :=
  match e with
  | EMkdir p => set_node p (mkNode KDir 448 0 0) f
  | ESymlink p t => set_node p (mkNode (KLink t) 511 0 0) f
  | ECreate p => set_node p (mkNode (KFile []) 384 0 0) f
  | EChmod p m => match f p with Some n => set_node p (mkNode (n_kind n) m (n_uid n) (n_gid n)) f | None => f end
  | EChown p u g => match f p with Some n => set_node p (mkNode (n_kind n) (drop_bits (n_kind n) (n_mode n)) u g) f | None => f end
  | EWrite p t => match f p with Some n => set_node p (mkNode (KFile t) (n_mode n) (n_uid n) (n_gid n)) f | None => f end
  end.
Record state := mkState { s_files : files; s_trace : list event }.
Definition emit (e : event) (s : state) : state := mkState (apply e (s_files s)) (s_trace s ++ [e])%list.

(** The calls that may fail, each at most once for a path of the copy: [asprintf] of the source and of the vendor's path; lstat of the two;
    opendir of the first and of the second source; readlink; open or fstat of the source; reading or writing; and the calls on the copy. *)
Inductive call := CAlloc | CAllocV | CLstat | CLstatV | COpendir (second : bool) | CReadlink | COpen | CCopy | CMkdir | CAt | CSymlink | CLchown | CCreate | CFchmod | CFchown | CChmod | CChown.
(** The failures; how much of a file was copied before a failure; the user; the umask. *)
Record conf := mkConf { c_fails : call -> path -> bool; c_part : path -> nat; c_uid : Z; c_gid : Z; c_umask : Z }.
Definition masked (C : conf) (m : Z) : Z := Z.ldiff m (c_umask C).

(** copy_entry, modules/pam_mkhomedir/mkhomedir_helper.c:89-280: [create] is the recursive call. [s] is what lstat finds at the source; [v] are the
    entries of the vendor's directory, None for NULL. Modes are those of chmod(2), the lowest twelve bits. *)
Definition copy_entry (create : path -> Z -> option src -> option src -> state -> res (Z * state)) (C : conf) (parent : path) (dmode : Z) (name : cstr) (s : src) (v : option src) (t : state) : res (Z * state) :=
  let p := (parent ++ [name])%list in
  if c_fails C CAlloc p then Ok (PAM_BUF_ERR, t)
  else if c_fails C CLstat p then Ok (PAM_SUCCESS, t)
  else match s with
  | SDir _ =>
      match v with
      | None => create p (masked C dmode) (Some s) None t
      | Some v =>
          if c_fails C CAllocV p then Ok (PAM_BUF_ERR, t)
          else create p (masked C dmode) (Some s) (if c_fails C CLstatV p then None else match opened v with Some es => entry name es | None => None end) t
      end
  | SLink target _ =>
      if c_fails C CReadlink p then Ok (PAM_SUCCESS, t)
      else match s_files t p with
           | Some _ => Ok (PAM_SUCCESS, t)
           | None =>
               if c_fails C CSymlink p then Ok (PAM_PERM_DENIED, t)
               else let t := emit (ESymlink p target) t in
                    if c_fails C CLchown p then Ok (PAM_PERM_DENIED, t) else Ok (PAM_SUCCESS, emit (EChown p (c_uid C) (c_gid C)) t)
           end
  | SOther => Ok (PAM_SUCCESS, t)
  | SFile mode text =>
      if c_fails C COpen p then Ok (PAM_PERM_DENIED, t)
      else match s_files t p with
           | Some _ => Ok (PAM_SUCCESS, t)
           | None =>
               if c_fails C CCreate p then Ok (PAM_PERM_DENIED, t)
               else
                 let t := emit (ECreate p) t in
                 if c_fails C CFchmod p then Ok (PAM_PERM_DENIED, t)
                 else
                   let t := emit (EChmod p (masked C (Z.lor mode 146))) t in
                   if c_fails C CFchown p then Ok (PAM_PERM_DENIED, t)
                   else
                     let t := emit (EChown p (c_uid C) (c_gid C)) t in
                     if c_fails C CCopy p then Ok (PAM_PERM_DENIED, emit (EWrite p (firstn (c_part C p) text)) t)
                     else Ok (PAM_SUCCESS, emit (EWrite p text) t)
           end
  end.
(** The entries of one source directory, modules/pam_mkhomedir/mkhomedir_helper.c:327-340. *)
Fixpoint copy_entries (create : path -> Z -> option src -> option src -> state -> res (Z * state)) (C : conf) (p : path) (dmode : Z) (es : list (cstr * src)) (v : option src) (t : state) : res (Z * state) :=
  match es with
  | [] => Ok (PAM_SUCCESS, t)
  | (n, s) :: es =>
      if streq n (lit ".") || streq n (lit "..") then copy_entries create C p dmode es v t
      else bind (copy_entry create C p dmode n s v t) (fun r => let '(rc, t) := r in
           if (rc =? PAM_SUCCESS)%Z then copy_entries create C p dmode es v t else Ok (rc, t))
  end.
(** One of the source directories, modules/pam_mkhomedir/mkhomedir_helper.c:312-343; None: NULL or the empty string. *)
Definition copy_source (create : path -> Z -> option src -> option src -> state -> res (Z * state)) (C : conf) (p : path) (dmode : Z) (second : bool) (s v : option src) (t : state) : res (Z * state) :=
  match s with
  | None => Ok (PAM_SUCCESS, t)
  | Some s => match (if c_fails C (COpendir second) p then None else opened s) with
              | None => Ok (PAM_PERM_DENIED, t)
              | Some es => copy_entries create C p dmode es v t
              end
  end.
(** create_homedir of the helper, modules/pam_mkhomedir/mkhomedir_helper.c:282-361: [p] is the directory made; [v] is not the empty string. "." and ".."
    are always there; there is nothing of the empty name and nothing can be made there. mkdirat fails with EEXIST if there is anything at [p]. *)
Fixpoint create (fuel : nat) (C : conf) (p : path) (dmode : Z) (s v : option src) (t : state) : res (Z * state) :=
  match fuel with
  | O => OutOfFuel
  | S k =>
      let dest := last p [] in
      if streq dest (lit ".") || streq dest (lit "..") then Ok (PAM_SUCCESS, t)
      else match s_files t p with
      | Some _ => Ok (PAM_SUCCESS, t)
      | None =>
          if streq dest [] || c_fails C CMkdir p then Ok (PAM_PERM_DENIED, t)
          else
            let t := emit (EMkdir p) t in
            bind (if c_fails C CAt p then Ok (PAM_PERM_DENIED, t)
                  else bind (copy_source (create k C) C p dmode false s v t) (fun r => let '(rc, t) := r in
                       if (rc =? PAM_SUCCESS)%Z then copy_source (create k C) C p dmode true v None t else Ok (rc, t))) (fun r =>
            let '(rc, t) := r in
            if c_fails C CChmod p then Ok (PAM_PERM_DENIED, t)
            else
              let t := emit (EChmod p dmode) t in
              if c_fails C CChown p then Ok (PAM_PERM_DENIED, t) else Ok (rc, emit (EChown p (c_uid C) (c_gid C)) t))
      end
  end.

(** ** The helper *)
(** The text before the last slash and after it, strrchr(dir, '/'). *)
Fixpoint last_slash (s : cstr) : option (cstr * cstr) :=
  match s with
  | [] => None
  | c :: s' => match last_slash s' with
               | Some (a, b) => Some (c :: a, b)
               | None => if Ascii.eqb c "/"%char then Some ([], s') else None
               end
  end.
(** What stat(2) and mkdir(2) say of a path. *)
Inductive there := Found | Missing | Unknown.
Inductive made := Made | Exists | Refused.
(** make_parent_dirs, modules/pam_mkhomedir/mkhomedir_helper.c:390-416: the result and the directories made with mode 0755. A path that stat finds
    missing is made before the longer ones, and each path is asked for once: so what stat and mkdir say depends on the path only. *)
Fixpoint make_parents (fuel : nat) (stat : cstr -> there) (mkdir : cstr -> made) (dir : cstr) (make : bool) : res (Z * list cstr) :=
  match fuel with
  | O => OutOfFuel
  | S k =>
      match last_slash dir with
      | None => Ok (PAM_SUCCESS, [])
      | Some (a, _) =>
          bind (match a with
                | [] => Ok (PAM_SUCCESS, [])
                | _ => match stat a with Missing => make_parents k stat mkdir a true | _ => Ok (PAM_SUCCESS, []) end
                end) (fun r => let '(rc, ms) := r in
          if negb (rc =? PAM_SUCCESS)%Z then Ok (rc, ms)
          else if make then match mkdir dir with Made => Ok (rc, (ms ++ [dir])%list) | Exists => Ok (rc, ms) | Refused => Ok (PAM_PERM_DENIED, ms) end
          else Ok (rc, ms))
      end
  end.
(** strtoul(s, &ep, 0), C standard 7.24.1.8: the value, whether it is out of range, the text at ep. *)
Definition strtoul0 (s : cstr) : Z * bool * cstr :=
  let '(neg, s1) := sign (skip_spaces s) in
  let '(v, n, r) :=
    match s1 with
    | z :: x :: d :: _ =>
        if Ascii.eqb z "0"%char && Ascii.eqb (tolower x) "x"%char && (hex_val d <? 16)%Z then digits_in 16 (skipn 2 s1) 0%Z 0%nat
        else if Ascii.eqb z "0"%char then digits_in 8 s1 0%Z 0%nat else digits_in 10 s1 0%Z 0%nat
    | z :: _ => if Ascii.eqb z "0"%char then digits_in 8 s1 0%Z 0%nat else digits_in 10 s1 0%Z 0%nat
    | [] => (0%Z, 0%nat, [])
    end in
  if Nat.eqb n 0 then (0%Z, false, s)
  else if (ULONG_MAX <? v)%Z then (ULONG_MAX, true, r) else ((if neg then (- v) mod (ULONG_MAX + 1) else v)%Z, false, r).
(** modules/pam_mkhomedir/mkhomedir_helper.c:439-444 and 452-457. *)
Definition number (s : cstr) : option Z :=
  match strtoul0 s with (v, false, []) => Some v | _ => None end.
(** The world of the helper: the home directory of a user with their ids; the skeleton directories by name, None where nothing can be opened; what
    stat and mkdir say; whether a directory can be opened. *)
Record world := mkWorld { w_user : cstr -> option (cstr * Z * Z); w_skel : cstr -> option src; w_stat : cstr -> there; w_mkdir : cstr -> made; w_open : cstr -> bool; w_fails : call -> path -> bool; w_part : path -> nat; w_files : cstr -> files }.
(** The result of the helper: its exit status; the parents made; the parent of the home directory and the calls below it. *)
Record done := mkDone { d_rc : Z; d_parents : list cstr; d_below : option (cstr * path * state) }.
(** A source directory by name: nothing for the empty name; one that cannot be opened is [SOther]. *)
Definition skeleton (W : world) (name : cstr) : option src :=
  match name with [] => None | _ => Some match w_skel W name with Some s => s | None => SOther end end.
(** main with create_homedir_helper, modules/pam_mkhomedir/mkhomedir_helper.c:363-388,418-480. [args] are the arguments after the name of the program.
    home_mode is taken in the twelve bits of chmod(2); the vendor's directory is not the empty string. *)
Definition helper (W : world) (args : list cstr) : res done :=
  let stop rc := Ok (mkDone rc [] None) in
  match args with
  | [] => stop PAM_SESSION_ERR
  | user :: args =>
      match w_user W user with
      | None => stop PAM_USER_UNKNOWN
      | Some (dir, uid, gid) =>
          match (match args with m :: _ => number m | [] => Some 18%Z end) with
          | None => stop PAM_SESSION_ERR
          | Some umask =>
              match (match args with _ :: _ :: m :: _ => number m | _ => Some 0%Z end) with
              | None => stop PAM_SESSION_ERR
              | Some mode =>
                  let skel := match args with _ :: sk :: _ => sk | _ => lit "/etc/skel" end in
                  let vendor := match args with _ :: _ :: _ :: vd :: _ => skeleton W vd | _ => None end in
                  let mode := Z.land (if (mode =? 0)%Z then Z.ldiff 511 umask else mode) 4095 in
                  match dir with
                  | c :: _ =>
                      if negb (Ascii.eqb c "/"%char) then stop PAM_SESSION_ERR
                      else match w_stat W dir with
                      | Found => stop PAM_SUCCESS
                      | _ =>
                          bind (make_parents (S (length dir)) (w_stat W) (w_mkdir W) dir false) (fun r => let '(rc, ms) := r in
                          if negb (rc =? PAM_SUCCESS)%Z then Ok (mkDone PAM_PERM_DENIED ms None)
                          else match last_slash dir with
                          | None => UB
                          | Some (a, name) =>
                              let up := match a with [] => lit "/" | _ => a end in
                              if negb (w_open W up) then Ok (mkDone PAM_PERM_DENIED ms None)
                              else
                                let sk := skeleton W skel in
                                let h o := match o with Some s => height s | None => 0%nat end in
                                bind (create (S (Nat.max (h sk) (h vendor))) (mkConf (w_fails W) (w_part W) uid gid umask) [name] mode sk vendor (mkState (w_files W up) []))
                                  (fun r => Ok (mkDone (fst r) ms (Some (up, [name], snd r))))
                          end)
                      end
                  | [] => stop PAM_SESSION_ERR
                  end
              end
          end
      end
  end.

(** ** The module *)
(** Numerals of base 8, printf's %o. *)
Fixpoint octal (fuel : nat) (m : Z) : cstr :=
  match fuel with
  | O => []
  | S k => if (m =? 0)%Z then [] else (octal k (m / 8) ++ [chr (48 + Z.to_nat (m mod 8))])%list
  end.
(** _pam_conv_str_umask_to_homemode, modules/pam_mkhomedir/pam_mkhomedir.c:106-111: strtoul with base 8, and %#o. *)
Definition homemode (umask : cstr) : cstr :=
  "0"%char :: octal 4 (Z.ldiff 511 (fst (strtoul 8 umask))).
Record options := mkOptions { o_quiet : bool; o_umask : option cstr; o_skel : option cstr }.
(** _pam_parse, modules/pam_mkhomedir/pam_mkhomedir.c:75-104: [silent] is the flag PAM_SILENT. The option debug only logs, and options that are not known are logged. *)
Definition parse_step (o : options) (a : cstr) : options :=
  if streq a (lit "silent") then mkOptions true (o_umask o) (o_skel o)
  else if streq a (lit "debug") then o
  else match skip_prefix (lit "umask=") a with
  | Some s => mkOptions (o_quiet o) (Some s) (o_skel o)
  | None => match skip_prefix (lit "skel=") a with Some s => mkOptions (o_quiet o) (o_umask o) (Some s) | None => o end
  end.
Definition parse (silent : bool) (args : list cstr) : options := fold_left parse_step args (mkOptions silent None None).
(** How a child ended. *)
Inductive status := Exited (code : Z) | Killed.
(** What the module depends on: PAM_USER; the home directory of a user; whether it is there; UMASK and HOME_MODE of /etc/login.defs; asprintf; fork; the
    descriptors of the child being set up; execve; how the helper with these arguments ends; waitpid; the vendor's directory, if the module is built with one. *)
Record env := mkEnv { e_user : Z * option cstr; e_dir : cstr -> option cstr; e_stat : cstr -> bool; e_defs : cstr -> option cstr; e_alloc : bool; e_fork : bool; e_fds : bool; e_exec : bool; e_helper : list cstr -> status; e_wait : bool; e_vendor : option cstr }.
Inductive told := Creating (dir : cstr) | Unable (dir : cstr).
Record result := mkResult { r_rc : Z; r_told : list told; r_ran : option (list cstr) }.
(** create_homedir of the module, modules/pam_mkhomedir/pam_mkhomedir.c:113-220: [r_ran] are the arguments the helper was run with. A NULL ends them. *)
Definition run_helper (E : env) (o : options) (user dir : cstr) : result :=
  let mode :=
    match o_umask o with
    | Some m => if e_alloc E then Some (homemode m) else None
    | None => match e_defs E (lit "HOME_MODE") with
              | Some m => Some m
              | None => if e_alloc E then Some (homemode (match e_defs E (lit "UMASK") with Some m => m | None => lit "0022" end)) else None
              end
    end in
  let args := (lit "mkhomedir_helper" :: user :: match o_umask o with Some m => m | None => lit "0022" end :: match o_skel o with Some s => s | None => lit "/etc/skel" end ::
               match mode with None => [] | Some m => m :: match o_skel o, e_vendor E with None, Some v => [v] | _, _ => [] end end)%list in
  let '(st, ran) := if negb (e_fds E && e_exec E) then (Exited PAM_SYSTEM_ERR, None) else (e_helper E args, Some args) in
  let '(rc, ran) := if negb (e_fork E) then (PAM_SYSTEM_ERR, None)
                    else (if negb (e_wait E) then PAM_SYSTEM_ERR else match st with Killed => PAM_SYSTEM_ERR | Exited c => c end, ran) in
  mkResult rc ((if o_quiet o then [] else [Creating dir]) ++ (if (rc =? PAM_SUCCESS)%Z || o_quiet o then [] else [Unable dir]))%list ran.
(** pam_sm_open_session, modules/pam_mkhomedir/pam_mkhomedir.c:224-265. *)
Definition open_session (E : env) (silent : bool) (args : list cstr) : result :=
  let stop rc := mkResult rc [] None in
  match e_user E with
  | (0%Z, Some (c :: s)) =>
      let user := c :: s in
      match e_dir E user with
      | None => stop PAM_USER_UNKNOWN
      | Some dir => if e_stat E dir then stop PAM_SUCCESS else run_helper E (parse silent args) user dir
      end
  | _ => stop PAM_USER_UNKNOWN
  end.
