(** Model of the names pam_namespace works with: the paths of instances, the check of a path, the users, and the state of the root mount.
    modules/pam_namespace/pam_namespace.c:1125-1153, 1282-1544, 2422-2517. Logging is left out and allocations succeed. *)
From Coq Require Import String Ascii List Arith ZArith Bool.
From Verif Require Import Base Str_Model Opt_Model Nsopen_Model Nsconf_Model.
Import ListNotations.

(** What stands before and after the last [c] of [s], for strrchr; modules/pam_namespace/pam_namespace.c:1296, 1301, 1498, 1501. *)
Definition rsplit (c : ascii) (s : cstr) : option (cstr * cstr) :=
  match split_at c (rev s) with Some (b, a) => Some (rev a, rev b) | None => None end.
(** NAMESPACE_MAX_DIR_LEN, modules/pam_namespace/pam_namespace.h:121. *)
Definition MAX_DIR_LEN : nat := 80.
(** The name from the differentiation string, modules/pam_namespace/pam_namespace.c:1402-1421; [H] is md5hash of lines 1128-1153, [gen] is
    PAMNS_GEN_HASH. The precision of %.*s is not negative for a hash of 32 characters; a negative one would mean the whole string. *)
Definition pick_name (H : cstr -> cstr) (gen : bool) (d : cstr) : cstr :=
  if gen || Nat.ltb MAX_DIR_LEN (length d) then
    if gen then H d
    else ((if Nat.ltb (MAX_DIR_LEN - 1) (length (H d)) then d else firstn (MAX_DIR_LEN - 1 - length (H d)) d) ++ lit "_" ++ H d)%list
  else d.
(** instance_absolute, instance_parent and instname of struct polydir_s, modules/pam_namespace/pam_namespace.h:169-171. *)
Record paths := mkPaths { i_abs : cstr; i_parent : cstr; i_name : cstr }.
(** set_polydir_paths, modules/pam_namespace/pam_namespace.c:1288-1305; None is -1. NULL + 1 is undefined. *)
Definition set_paths (prefix d : cstr) : res (option paths) :=
  let abs := (prefix ++ d)%list in
  if negb (fits abs) then Ok None
  else match rsplit "/"%char abs with
       | None => UB
       | Some (a, b) => Ok (Some (mkPaths abs (a ++ lit "/")%list b))
       end.
(** poly_name, modules/pam_namespace/pam_namespace.c:1315-1443, with SELinux compiled in. [ctxt] is PAMNS_CTXT_BASED_INST, [form] the
    result of form_context (PAM_SUCCESS when SELinux is disabled), [raw] what selinux_trans_to_raw_context gives. *)
Definition poly_name (H : cstr -> cstr) (gen ctxt : bool) (form : Z) (raw : option cstr) (user : cstr) (p : poly) : res (Z * option paths) :=
  if negb (form =? PAM_SUCCESS)%Z then Ok (form, None)
  else
    let finish d := bind (set_paths (p_prefix p) d) (fun r => Ok match r with None => (PAM_SESSION_ERR, None) | Some x => (PAM_SUCCESS, Some x) end) in
    let by_context := match raw with
                      | None => Ok (PAM_SESSION_ERR, None)
                      | Some c => finish (pick_name H gen (if p_shared p then c else (c ++ lit "_" ++ user)%list))
                      end in
    let by_user := finish (pick_name H gen user) in
    match p_method p with
    | USER => by_user
    | LEVEL | CONTEXT => if ctxt then by_context else if p_shared p then Ok (PAM_IGNORE, None) else by_user
    | TMPDIR => finish (lit "XXXXXX")
    | TMPFS => finish []
    end.

(** What lstat or stat tells: the kind of a file. *)
Inductive kind := KDir | KLink | KOther.
(** One path of the loop of check_safe_path, modules/pam_namespace/pam_namespace.c:1503-1533; [lstat] and [stat] give kind, owner and mode. *)
Definition segment_ok (lstat stat : cstr -> option (kind * Z * Z)) (dir : cstr) : bool :=
  match (match lstat dir with
         | None => None
         | Some (KLink, u, _) => if (u =? 0)%Z then stat dir else None
         | x => x
         end) with
  | Some (KDir, u, m) => (u =? 0)%Z && ((Z.land m 18 =? 0)%Z || negb (Z.land m 512 =? 0)%Z)
  | _ => false
  end.
(** The loop, modules/pam_namespace/pam_namespace.c:1501-1536. *)
Fixpoint safe_loop (fuel : nat) (lstat stat : cstr -> option (kind * Z * Z)) (dir : cstr) : res bool :=
  match fuel with
  | O => OutOfFuel
  | S fuel =>
      match rsplit "/"%char dir with
      | None => Ok true
      | Some (a, _) => if segment_ok lstat stat dir then safe_loop fuel lstat stat a else Ok false
      end
  end.
(** check_safe_path, modules/pam_namespace/pam_namespace.c:1481-1544; true is 0. *)
Definition check_safe_path (lstat stat : cstr -> option (kind * Z * Z)) (path : cstr) : res bool :=
  match path with
  | [] => Ok false
  | c :: _ =>
      if negb (Ascii.eqb c "/"%char) then Ok false
      else
        let p := strip_slashes path in
        let p := match rsplit "/"%char p with Some (a, _) => a | None => p end in
        safe_loop (S (length p)) lstat stat p
  end.

(** One line of /proc/self/mountinfo in root_shared, modules/pam_namespace/pam_namespace.c:2439-2461: the words 0 to 6, and the new rv. *)
Definition mount_line (line : cstr) (rv : bool) : bool :=
  match strtoks (lit " ") line with
  | _ :: _ :: _ :: _ :: t4 :: rest =>
      if negb (streq t4 (lit "/")) then rv
      else match rest with
           | _ :: t6 :: _ => match skip_prefix (lit "shared:") t6 with Some _ => true | None => false end
           | _ => rv
           end
  | _ => rv
  end.
(** root_shared, modules/pam_namespace/pam_namespace.c:2422-2468; None is a file that cannot be opened. *)
Definition root_shared (mountinfo : option (list ascii)) : bool :=
  match mountinfo with
  | None => false
  | Some f => fold_left (fun rv line => mount_line (cut line) rv) (lines_of f) false
  end.

(** LOGIN_NAME_MAX of limits.h, the size of user and ruser in struct instance_data, modules/pam_namespace/pam_namespace.h:194-195. *)
Definition LOGIN_NAME_MAX : nat := 256.
(** strncat(buffer, s, LOGIN_NAME_MAX - 1) of string.h to a buffer of LOGIN_NAME_MAX bytes; None is a buffer that was never written. *)
Definition strncat (buffer : option cstr) (s : cstr) : res cstr :=
  match buffer with
  | None => UB
  | Some b => let r := (b ++ firstn (LOGIN_NAME_MAX - 1) s)%list in if Nat.ltb (length r) LOGIN_NAME_MAX then Ok r else UB
  end.
(** The fields get_user_data sets in struct instance_data. *)
Record userdata := mkUd { u_user : cstr; u_uid : Z; u_gid : Z; u_ruser : cstr; u_ruid : Z }.
(** get_user_data, modules/pam_namespace/pam_namespace.c:2470-2517. [user] and [ruser] are the items PAM_USER and PAM_RUSER (None is NULL or a
    failure), [pw] is getpwnam (name, uid and gid), [pwuid] getpwuid(getuid()). struct instance_data is a local variable of the callers that
    they do not clear, lines 2526-2533 and 2622-2628. *)
Definition get_user_data (pw : cstr -> option (cstr * Z * Z)) (pwuid : option (cstr * Z * Z)) (user ruser : option cstr) : res (Z * option userdata) :=
  match user with
  | None => Ok (PAM_SESSION_ERR, None)
  | Some user =>
      match pw user with
      | None => Ok (PAM_USER_UNKNOWN, None)
      | Some (_, uid, gid) =>
          bind (strncat (Some []) user) (fun u =>
          bind (match ruser with
                | Some (c :: r) => bind (strncat None (c :: r)) (fun _ => Ok (pw (c :: r)))
                | _ => Ok pwuid
                end) (fun pwd =>
          match pwd with
          | None => Ok (PAM_USER_UNKNOWN, None)
          | Some (name, ruid, _) => bind (strncat (Some []) name) (fun ru => Ok (PAM_SUCCESS, Some (mkUd u uid gid ru ruid)))
          end))
      end
  end.
