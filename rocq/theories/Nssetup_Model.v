(** Model of setting up the instances of pam_namespace: modules/pam_namespace/pam_namespace.c:1445-1471, 1638-2063, 2180-2395, on the file
    system of Nsopen_Model.v. Logging, labels of SELinux, groups and secure_try_rmdir are left out. *)
From Coq Require Import String Ascii List Arith ZArith Bool.
From Verif Require Import Base Str_Model Opt_Model.
From Verif Require Nsopen_Model.
From Verif Require Import Nsconf_Model Nsname_Model.
Import ListNotations.
Import Nsopen_Model(ino, st, fd, mkSt, s_clock, s_open, tick, sys_openat, sys_close, sys_fstat, e_fail, secure_opendir, secure_umount).

(** What is done to the system: a bind mount, a mount of a tmpfs, fchmod, fchown, and the init script with newdir. *)
Inductive event := EBind (src dst : ino) | ETmpfs (dst : ino) | EChmod (i : ino) (mode : Z) | EChown (i : ino) (uid : Z) | EScript (newdir : bool).
(** The results of mkdirat and mkdtemp in create_instance, modules/pam_namespace/pam_namespace.c:1775-1797: 0, EEXIST, and another error. *)
Inductive made := Made | There | Refused.
(** The flags and names of struct instance_data that matter here: PAMNS_GEN_HASH, PAMNS_CTXT_BASED_INST, PAMNS_IGN_INST_PARENT_MODE, the hash,
    the user and the uid. *)
Record cfg := mkCfg { c_hash : cstr -> cstr; c_gen : bool; c_ctxt : bool; c_ign : bool; c_user : cstr; c_uid : Z }.
(** What happens for one entry: whether errno is ENOENT at line 1894, the results of form_context and selinux_trans_to_raw_context, of mkdirat
    or mkdtemp and the name the latter makes, of inst_init, and of umount2. *)
Record world := mkWorld { x_noent : bool; x_form : Z; x_raw : option cstr; x_made : made; x_tmp : cstr; x_init : Z; x_umount : ino -> bool }.

(** A call on a descriptor that may fail, such as fchmod. *)
Definition works (E : Nsopen_Model.env) (s : st) : bool * st := (negb (e_fail E (s_clock s)), tick s).
(** check_inst_parent, modules/pam_namespace/pam_namespace.c:1445-1471; true is PAM_SUCCESS. 511 is S_IRWXU|S_IRWXG|S_IRWXO. *)
Definition check_inst_parent (E : Nsopen_Model.env) (C : cfg) (d : fd) (s : st) : bool * st :=
  if c_ign C then (true, s)
  else let '(r, s) := sys_fstat E d s in
       (match r with Some (u, m) => (Z.land m 511 =? 0)%Z && (u =? 0)%Z | None => false end, s).
(** create_polydir, modules/pam_namespace/pam_namespace.c:1638-1747; None is -1. *)
Definition create_polydir (E : Nsopen_Model.env) (C : cfg) (x : world) (p : poly) (s : st) : option fd * list event * st :=
  let fail (d : fd) (evs : list event) (s : st) := let '(_, s) := secure_umount E (x_umount x) (p_dir p) (sys_close d s) in (None, evs, s) in
  let '(r, s) := secure_opendir E true true true (p_dir p) s in
  match r with
  | None => (None, [], s)
  | Some d =>
      let '(ok, evs, s) := if (p_mode p =? NOBODY)%Z then (true, [], s)
                           else let '(ok, s) := works E s in (ok, if ok then [EChmod (snd d) (p_mode p)] else [], s) in
      if negb ok then fail d evs s
      else
        let uid := if (p_owner p =? NOBODY)%Z then c_uid C else p_owner p in
        let '(ok, s) := works E s in
        if ok then (Some d, evs ++ [EChown (snd d) uid], s)%list else fail d evs s
  end.
(** create_instance, modules/pam_namespace/pam_namespace.c:1755-1862: the result, the name of the instance, whether the method is still the
    same, and what was done. [u] and [m] are st_uid and st_mode of the directory. fchown is left out by the code if owner and group fit
    already; here the group is not known and it is called if the owner differs. *)
Definition create_instance (E : Nsopen_Model.env) (x : world) (p : poly) (name : cstr) (parent : fd) (u m : Z) (s : st) : Z * cstr * bool * list event * st :=
  let tmp := match p_method p with TMPDIR => true | _ => false end in
  match x_made x, tmp with
  | There, false => (PAM_IGNORE, name, true, [], s)
  | Refused, false => (PAM_SESSION_ERR, name, true, [], s)
  | There, true | Refused, true => (PAM_SESSION_ERR, name, false, [], s)
  | Made, _ =>
      let name := if tmp then x_tmp x else name in
      let '(r, s) := sys_openat E true parent name s in
      match r with
      | None => (PAM_SESSION_ERR, name, true, [], s)
      | Some d =>
          let '(t, s) := sys_fstat E d s in
          match t with
          | None => (PAM_SESSION_ERR, name, true, [], sys_close d s)
          | Some (u', _) =>
              let '(ok, evs, s) := if (u' =? u)%Z then (true, [], s) else let '(ok, s) := works E s in (ok, if ok then [EChown (snd d) u] else [], s) in
              if negb ok then (PAM_SESSION_ERR, name, true, evs, sys_close d s)
              else
                let '(ok, s) := works E s in
                if ok then (PAM_SUCCESS, name, true, evs ++ [EChmod (snd d) (Z.land m 4095)], sys_close d s)%list
                else (PAM_SESSION_ERR, name, true, evs, sys_close d s)
          end
      end
  end.
(** ns_setup from line 1930 on, modules/pam_namespace/pam_namespace.c:1930-2063, for a directory that is open; also the parent and the name of
    an instance that cleanup_tmpdirs would remove. *)
Definition setup_instance (E : Nsopen_Model.env) (C : cfg) (x : world) (p : poly) (dir : fd) (s : st) : res (Z * option (cstr * cstr) * list event * st) :=
  let '(t, s) := sys_fstat E dir s in
  match t with
  | None => Ok (PAM_SESSION_ERR, None, [], sys_close dir s)
  | Some (u, m) =>
      bind (poly_name (c_hash C) (c_gen C) (c_ctxt C) (x_form x) (x_raw x) (c_user C) p) (fun '(rc, ps) =>
      match ps with
      | None => Ok (if (rc =? PAM_IGNORE)%Z then PAM_IGNORE else PAM_SESSION_ERR, None, [], sys_close dir s)
      | Some ps =>
          let keep (name : cstr) := match p_method p with TMPDIR => Some (i_parent ps, name) | _ => None end in
          let '(r, s) := secure_opendir E true true true (i_parent ps) s in
          match r with
          | None => Ok (PAM_SESSION_ERR, keep (i_name ps), [], sys_close dir s)
          | Some parent =>
              let '(ok, s) := check_inst_parent E C parent s in
              if negb ok then Ok (PAM_SESSION_ERR, keep (i_name ps), [], sys_close dir (sys_close parent s))
              else
                let '(rc, name, same, evs, s) := create_instance E x p (i_name ps) parent u m s in
                let kept := if same then keep name else None in
                let newdir := negb (rc =? PAM_IGNORE)%Z in
                if negb ((rc =? PAM_IGNORE) || (rc =? PAM_SUCCESS))%Z then Ok (PAM_SESSION_ERR, kept, evs, sys_close dir (sys_close parent s))
                else
                  let '(r, s) := sys_openat E true parent name s in
                  match r with
                  | None => Ok (PAM_SESSION_ERR, kept, evs, sys_close dir (sys_close parent s))
                  | Some inst =>
                      let '(ok, s) := works E s in
                      if negb ok then Ok (PAM_SESSION_ERR, kept, evs, sys_close dir (sys_close inst (sys_close parent s)))
                      else
                        let evs := (evs ++ [EBind (snd inst) (snd dir)])%list in
                        let '(rc, evs) := if p_noinit p then (PAM_SUCCESS, evs) else (x_init x, evs ++ [EScript newdir])%list in
                        Ok (rc, kept, evs, sys_close dir (sys_close inst (sys_close parent s)))
                  end
          end
      end)
  end.
(** ns_setup, modules/pam_namespace/pam_namespace.c:1872-2063. *)
Definition ns_setup (E : Nsopen_Model.env) (C : cfg) (x : world) (p : poly) (s : st) : res (Z * option (cstr * cstr) * list event * st) :=
  let '(r, s) := secure_opendir E true false true (p_dir p) s in
  let '(r, evs, s) := match r with
                      | Some d => (Some d, [], s)
                      | None => if negb (x_noent x) || negb (p_create p) then (None, [], s) else create_polydir E C x p s
                      end in
  match r with
  | None => Ok (PAM_SESSION_ERR, None, evs, s)
  | Some dir =>
      match p_method p with
      | TMPFS =>
          let '(ok, s) := works E s in
          if negb ok then Ok (PAM_SESSION_ERR, None, evs, sys_close dir s)
          else if p_noinit p then Ok (PAM_SUCCESS, None, evs ++ [ETmpfs (snd dir)], sys_close dir s)%list
          else Ok (x_init x, None, evs ++ [ETmpfs (snd dir); EScript true], sys_close dir s)%list
      | _ => bind (setup_instance E C x p dir s) (fun '(rc, k, evs2, s) => Ok (rc, k, evs ++ evs2, s)%list)
      end
  end.

(** enum unmnt_op, modules/pam_namespace/pam_namespace.h:156-160. *)
Inductive unmnt := NO_UNMNT | UNMNT_REMNT | UNMNT_ONLY.
(** What setup_namespace does: unshare, remount the root as a slave, leave a directory that is going to be unmounted, unmount it, and
    ns_setup; and the clean up of the temporary directories with unprotect_dirs. *)
Inductive action := AUnshare | ASlave | ALeave (dir : cstr) | AUnmount (dir : cstr) | ASetup (p : poly) | ACleanup.
(** What setup_namespace meets: whether unshare and the remount work, getcwd, secure_umount for a directory (None is an error other than
    EINVAL, which is the same as success here), ns_setup for an entry, and the two calls of pam_set_data. *)
Record surround := mkSur { w_unshare : bool; w_slave : bool; w_cwd : option cstr; w_umount : cstr -> bool; w_setup : poly -> Z; w_data1 : bool; w_data2 : bool }.
(** Whether an entry calls for a namespace, modules/pam_namespace/pam_namespace.c:2197-2224. *)
Definition needs (um : unmnt) (uid ruid : Z) (p : poly) : bool :=
  negb (ns_override p uid) || match um with NO_UNMNT => false | _ => negb (ns_override p ruid) end.
(** What is done for an entry, modules/pam_namespace/pam_namespace.c:2258-2268: None is to go on to the next. *)
Definition dir_unmnt (um : unmnt) (uid ruid : Z) (p : poly) : option unmnt :=
  let d := if ns_override p ruid then NO_UNMNT else um in
  if ns_override p uid then match d with NO_UNMNT => None | _ => Some UNMNT_ONLY end else Some d.
(** The second loop, modules/pam_namespace/pam_namespace.c:2255-2331. cwd_in, lines 2070-2091, compares the first characters only. *)
Fixpoint setup_loop (W : surround) (um : unmnt) (uid ruid : Z) (l : list poly) : Z * list action :=
  match l with
  | [] => (PAM_SUCCESS, [])
  | p :: l =>
      match dir_unmnt um uid ruid p with
      | None => setup_loop W um uid ruid l
      | Some d =>
          let '(rc, acts) := match d with
                             | NO_UNMNT => (PAM_SUCCESS, [])
                             | _ =>
                                 match w_cwd W with
                                 | None => (PAM_SESSION_ERR, [])
                                 | Some cwd =>
                                     let acts := if is_prefix (p_rdir p) cwd then [ALeave (p_rdir p)] else [] in
                                     if w_umount W (p_rdir p) then (PAM_SUCCESS, acts ++ [AUnmount (p_rdir p)])%list else (PAM_SESSION_ERR, acts)
                                 end
                             end in
          if negb (rc =? PAM_SUCCESS)%Z then (rc, acts)
          else
            let '(rc, acts) := match d with
                               | UNMNT_ONLY => (PAM_SUCCESS, acts)
                               | _ => (if (w_setup W p =? PAM_IGNORE)%Z then PAM_SUCCESS else w_setup W p, acts ++ [ASetup p])%list
                               end in
            if negb (rc =? PAM_SUCCESS)%Z then (rc, acts)
            else let '(rc, acts2) := setup_loop W um uid ruid l in (rc, acts ++ acts2)%list
      end
  end.
(** setup_namespace, modules/pam_namespace/pam_namespace.c:2180-2352; [slave] is PAMNS_MOUNT_PRIVATE. *)
Definition setup_namespace (W : surround) (um : unmnt) (slave : bool) (uid ruid : Z) (l : list poly) : Z * list action :=
  if negb (existsb (needs um uid ruid) l) then (PAM_SUCCESS, [])
  else if negb (w_unshare W) then (PAM_SESSION_ERR, [])
  else if slave && negb (w_slave W) then (PAM_SESSION_ERR, [AUnshare])
  else
    let pre := AUnshare :: (if slave then [ASlave] else []) in
    let '(rc, acts) := setup_loop W um uid ruid l in
    if negb (rc =? PAM_SUCCESS)%Z then (rc, pre ++ acts ++ [ACleanup])%list
    else if negb (w_data1 W) then (PAM_SYSTEM_ERR, pre ++ acts ++ [ACleanup])%list
    else if negb (w_data2 W) then (PAM_SYSTEM_ERR, pre ++ acts ++ [ACleanup])%list
    else (PAM_SUCCESS, pre ++ acts)%list.
(** orig_namespace, modules/pam_namespace/pam_namespace.c:2359-2395. *)
Fixpoint orig_namespace (umount : cstr -> bool) (uid : Z) (l : list poly) : Z * list action :=
  match l with
  | [] => (PAM_SUCCESS, [ACleanup])
  | p :: l =>
      if ns_override p uid then orig_namespace umount uid l
      else if negb (umount (p_dir p)) then (PAM_SESSION_ERR, [])
      else let '(rc, acts) := orig_namespace umount uid l in (rc, AUnmount (p_dir p) :: acts)
  end.
