(** Model of secure_opendir and its helpers, modules/pam_namespace/pam_namespace.c:68-307, and of the kernel calls they make. errno and
    logging are left out. *)
From Coq Require Import String Ascii List Arith ZArith Bool.
From Verif Require Import Base Str_Model Opt_Model.
Import ListNotations.

(** An inode number. *)
Definition ino := nat.
(** An inode as the calls of modules/pam_namespace/pam_namespace.c:143-265 see it: a directory with its owner, its mode and its entries
    (the entries . and .. are among them), a symbolic link with its text, or anything else. Permissions of the caller, which is root, are
    left out. *)
Inductive node := NDir (uid mode : Z) (ents : list (cstr * ino)) | NLink (target : cstr) | NOther.
(** A state of the file system and the inode of the root directory, which is 0. *)
Definition fsys := ino -> option node.

(** The entry [name] of the directory [d]. *)
Definition lookup (F : fsys) (d : ino) (name : cstr) : option ino :=
  match F d with
  | Some (NDir _ _ es) => match find (fun e => streq (fst e) name) es with Some e => Some (snd e) | None => None end
  | _ => None
  end.
(** path_resolution(7): the inode that [path] leads to from the directory [d], links followed; empty components are skipped. [n] bounds the
    nesting of links (the kernel allows 40 links in all). *)
Fixpoint resolve (n : nat) (F : fsys) (d : ino) (path : cstr) : option ino :=
  let step (o : option ino) (c : cstr) :=
    match o, c with
    | None, _ => None
    | Some d, [] => Some d
    | Some d, _ =>
        match lookup F d c with
        | None => None
        | Some i => match F i with
                    | Some (NLink t) => match n with O => None | S n' => resolve n' F d t end
                    | Some _ => Some i
                    | None => None
                    end
        end
    end in
  fold_left step (fields "/"%char path) (Some (match path with c :: _ => if Ascii.eqb c "/"%char then 0 else d | [] => d end)).
(** The inode if it is a directory, O_DIRECTORY of open(2). *)
Definition directory (F : fsys) (o : option ino) : option ino :=
  match o with Some i => match F i with Some (NDir _ _ _) => Some i | _ => None end | None => None end.
(** openat(d, name, O_DIRECTORY ...) of open(2) for a name without a slash, with or without O_NOFOLLOW; an empty name is ENOENT. *)
Definition open_entry (F : fsys) (nofollow : bool) (d : ino) (name : cstr) : option ino :=
  match name with
  | [] => None
  | _ => if nofollow then directory F (lookup F d name) else directory F (resolve 40 F d name)
  end.

(** The surroundings, modules/pam_namespace/pam_namespace.c:77-265: the file system at the time of the n-th call (others may change it at
    any time), whether that call (strdup, open, openat, fstat, or calloc to mount in protect_mount) fails for a reason of its own, and
    whether mkdirat returns 0; what mkdirat does shows in the later states of the file system. *)
Record env := mkEnv { e_fs : nat -> fsys; e_fail : nat -> bool; e_mkdir : nat -> bool }.
(** An open descriptor: a number of its own (the time of the call) and the directory. *)
Definition fd := (nat * ino)%type.
(** The state: how many calls were made, the open descriptors, protect_dirs of struct instance_data, and the directories mounted over
    themselves. *)
Record st := mkSt { s_clock : nat; s_open : list nat; s_prot : list cstr; s_mounts : list ino }.

(** A call that only takes time. *)
Definition tick (s : st) : st := mkSt (S (s_clock s)) (s_open s) (s_prot s) (s_mounts s).
(** A descriptor for what a call found. *)
Definition opened (E : env) (o : option ino) (s : st) : option fd * st :=
  if e_fail E (s_clock s) then (None, tick s)
  else match o with
       | None => (None, tick s)
       | Some i => (Some (s_clock s, i), mkSt (S (s_clock s)) (s_clock s :: s_open s) (s_prot s) (s_mounts s))
       end.
(** openat(dfd, name, flags), modules/pam_namespace/pam_namespace.c:193, 218, 236, 240, 259. *)
Definition sys_openat (E : env) (nofollow : bool) (d : fd) (name : cstr) (s : st) : option fd * st :=
  opened E (open_entry (e_fs E (s_clock s)) nofollow (snd d) name) s.
(** close(d). *)
Definition sys_close (d : fd) (s : st) : st := mkSt (s_clock s) (remove Nat.eq_dec (fst d) (s_open s)) (s_prot s) (s_mounts s).
(** fstat(d, &st), modules/pam_namespace/pam_namespace.c:197: st_uid and st_mode. *)
Definition sys_fstat (E : env) (d : fd) (s : st) : option (Z * Z) * st :=
  (if e_fail E (s_clock s) then None
   else match e_fs E (s_clock s) (snd d) with Some (NDir u m _) => Some (u, m) | _ => None end, tick s).

(** strip_trailing_slashes, modules/pam_namespace/pam_namespace.c:68-75; the first character stays. (For an empty string the loop compares
    a pointer before its start; here nothing happens.) *)
Definition strip_slashes (s : cstr) : cstr :=
  match s with [] => [] | c :: r => c :: rev (snd (span (fun x => Ascii.eqb x "/"%char) (rev r))) end.
(** protect_mount, modules/pam_namespace/pam_namespace.c:77-123; true is 0. The mount covers the directory with itself, so that names lead
    where they led before. *)
Definition protect_mount (E : env) (d : fd) (path : cstr) (s : st) : bool * st :=
  if existsb (streq path) (s_prot s) then (true, s)
  else if e_fail E (s_clock s) then (false, tick s)
  else (true, mkSt (S (s_clock s)) (s_open s) (path :: s_prot s) (snd d :: s_mounts s)).
(** The condition of modules/pam_namespace/pam_namespace.c:221-222. *)
Definition unsafe (u m : Z) : bool := negb (u =? 0)%Z || negb (Z.land m 18 =? 0)%Z.

(** What follows the loop, modules/pam_namespace/pam_namespace.c:236-265; [p] is the whole path and [dir] its last component. *)
Definition last_segment (E : env) (protect mkdir nofollow : bool) (p dir : cstr) (dfd : fd) (s : st) : option fd * st :=
  let '(r, s) := sys_openat E nofollow dfd dir s in
  let '(r, s) := match r with
                 | Some _ => (r, s)
                 | None => if mkdir then if e_mkdir E (s_clock s) then sys_openat E nofollow dfd dir (tick s) else (None, tick s) else (None, s)
                 end in
  match r with
  | None => (None, sys_close dfd s)
  | Some rv =>
      if nofollow && protect then
        let '(ok, s) := protect_mount E rv p s in
        if ok then let '(r, s) := sys_openat E nofollow dfd dir (sys_close rv s) in (r, sys_close dfd s)
        else (None, sys_close dfd (sys_close rv s))
      else (Some rv, sys_close dfd s)
  end.
(** The loop and what follows it, modules/pam_namespace/pam_namespace.c:190-265. [l] holds the components that strchr(dir, '/') finds one
    after the other, [p] the path up to and with the slash before the first of them. *)
Fixpoint walk (E : env) (protect mkdir nofollow : bool) (p : cstr) (l : list cstr) (dfd : fd) (s : st) : option fd * st :=
  match l with
  | [] => (None, sys_close dfd s)
  | dir :: l' =>
      match l' with
      | [] => last_segment E protect mkdir nofollow (p ++ dir)%list dir dfd s
      | _ :: _ =>
          let '(r, s) := sys_openat E nofollow dfd dir s in
          match r with
          | None => (None, sys_close dfd s)
          | Some next =>
              let '(t, s) := sys_fstat E next s in
              match t with
              | None => (None, sys_close dfd (sys_close next s))
              | Some (u, m) =>
                  if nofollow && protect then
                    let '(ok, s) := protect_mount E next (p ++ dir)%list s in
                    if negb ok then (None, sys_close dfd (sys_close next s))
                    else
                      let '(r, s) := sys_openat E nofollow dfd dir (sys_close next s) in
                      match r with
                      | None => (None, sys_close dfd s)
                      | Some next => walk E protect mkdir nofollow (p ++ dir ++ lit "/")%list l' next (sys_close dfd s)
                      end
                  else walk E protect mkdir (nofollow || unsafe u m) (p ++ dir ++ lit "/")%list l' next (sys_close dfd s)
              end
          end
      end
  end.
(** secure_opendir, modules/pam_namespace/pam_namespace.c:143-270. [idata] says that the last argument is not NULL; [mode] and
    SECURE_OPENDIR_FULL_FD do not matter here. None is -1. *)
Definition secure_opendir (E : env) (protect mkdir idata : bool) (path : cstr) (s : st) : option fd * st :=
  if protect && negb idata then (None, s)
  else match path with
       | [] => (None, s)
       | c :: _ =>
           if negb (Ascii.eqb c "/"%char) then (None, s)
           else if e_fail E (s_clock s) then (None, tick s)
           else
             let '(r, s) := opened E (directory (e_fs E (s_clock (tick s))) (Some 0)) (tick s) in
             match r with
             | None => (None, s)
             | Some dfd =>
                 match strip_slashes path with
                 | _ :: ((_ :: _) as dir) => walk E protect mkdir false (lit "/") (fields "/"%char dir) dfd s
                 | _ => (Some dfd, s)
                 end
             end
       end.
(** secure_umount, modules/pam_namespace/pam_namespace.c:287-307; [umount] is whether umount2 returns 0. The result is the directory that
    was unmounted; None is -1. *)
Definition secure_umount (E : env) (umount : ino -> bool) (path : cstr) (s : st) : option ino * st :=
  let '(r, s) := secure_opendir E false false false path s in
  match r with
  | None => (None, s)
  | Some d => (if umount (snd d) then Some (snd d) else None, sys_close d s)
  end.
