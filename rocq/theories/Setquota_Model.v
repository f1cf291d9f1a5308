(** Model of pam_setquota: modules/pam_setquota/pam_setquota.c. Logging and debug= are left out. *)
From Coq Require Import String Ascii List Arith ZArith Bool.
From Verif Require Import Base Num_Model Str_Model Opt_Model.
Import ListNotations.
Local Open Scope Z_scope.

(** strtoll and strtol with base 10 and errno, C standard 7.24.1.7: None if there is no number, otherwise the number, None if it is no 64-bit number (ERANGE), and what follows. *)
Definition strtoll (s : cstr) : option (option Z * cstr) :=
  let '(neg, s1) := sign (skip_spaces s) in
  let '(v, n, r) := digits_in 10 s1 0 0 in
  let x := if neg : bool then - v else v in
  if Nat.eqb n 0 then None else Some (if (LONG_MIN <=? x) && (x <=? LONG_MAX) then Some x else None, r).
(** str_to_dqb_num, modules/pam_setquota/pam_setquota.c:57-70. *)
Definition str_to_dqb_num (s : cstr) : Z :=
  match strtoll s with Some (Some x, []) => if x <? 0 then 0 else x | _ => 0 end.
(** The numbers of struct if_dqblk, and dqb_valid: limits for blocks and inodes, times for blocks and inodes. *)
Record block := mkBlock { b_bhard : Z; b_bsoft : Z; b_ihard : Z; b_isoft : Z; b_btime : Z; b_itime : Z }.
Record valid := mkValid { v_b : bool; v_i : bool; v_bt : bool; v_it : bool }.
(** The state of parse_dqblk, modules/pam_setquota/pam_setquota.c:73-74. *)
Record parsed := mkParsed { p_block : block; p_valid : valid; p_bhard : bool; p_bsoft : bool; p_ihard : bool; p_isoft : bool }.
(** One argument, modules/pam_setquota/pam_setquota.c:77-102. *)
Definition parse_limit (p : parsed) (a : cstr) : parsed :=
  let '(mkParsed (mkBlock bh bs ih is bt it) (mkValid vb vi vbt vit) fbh fbs fih fis) := p in
  match skip_prefix (lit "bhardlimit=") a with Some s => mkParsed (mkBlock (str_to_dqb_num s) bs ih is bt it) (mkValid true vi vbt vit) true fbs fih fis | None =>
  match skip_prefix (lit "bsoftlimit=") a with Some s => mkParsed (mkBlock bh (str_to_dqb_num s) ih is bt it) (mkValid true vi vbt vit) fbh true fih fis | None =>
  match skip_prefix (lit "ihardlimit=") a with Some s => mkParsed (mkBlock bh bs (str_to_dqb_num s) is bt it) (mkValid vb true vbt vit) fbh fbs true fis | None =>
  match skip_prefix (lit "isoftlimit=") a with Some s => mkParsed (mkBlock bh bs ih (str_to_dqb_num s) bt it) (mkValid vb true vbt vit) fbh fbs fih true | None =>
  match skip_prefix (lit "btime=") a with Some s => mkParsed (mkBlock bh bs ih is (str_to_dqb_num s) it) (mkValid vb vi true vit) fbh fbs fih fis | None =>
  match skip_prefix (lit "itime=") a with Some s => mkParsed (mkBlock bh bs ih is bt (str_to_dqb_num s)) (mkValid vb vi vbt true) fbh fbs fih fis | None => p
  end end end end end end.
(** parse_dqblk, modules/pam_setquota/pam_setquota.c:72-108, after dqb_valid = 0 (340): None is false. *)
Definition parse_dqblk (args : list cstr) (b : block) : option (block * valid) :=
  let p := fold_left parse_limit args (mkParsed b (mkValid false false false false) false false false false) in
  if negb (xorb (p_bhard p) (p_bsoft p)) && negb (xorb (p_ihard p) (p_isoft p)) then Some (p_block p, p_valid p) else None.

(** MAX_UID_VALUE, modules/pam_setquota/pam_setquota.c:32. *)
Definition MAX_UID_VALUE : Z := 4294967295.
(** str_to_uid, modules/pam_setquota/pam_setquota.c:111-132; errno is set with the value 0 only if there is no number. *)
Definition str_to_uid (s : cstr) (default : Z) : Z :=
  match strtoul 10 s with (v, Some []) => if MAX_UID_VALUE <=? v then default else v | _ => default end.
(** struct pam_params, modules/pam_setquota/pam_setquota.c:34-41; [q_fs] is fs cut to fs_len. *)
Record params := mkParams { q_start : Z; q_end : Z; q_fs : option cstr; q_over : Z }.
(** A long kept in an int. *)
Definition to_int (x : Z) : Z := (x + 2 ^ 31) mod 2 ^ 32 - 2 ^ 31.
(** One argument, modules/pam_setquota/pam_setquota.c:140-166. *)
Definition parse_param (q : params) (a : cstr) : params :=
  match skip_prefix (lit "startuid=") a with Some s => mkParams (str_to_uid s (q_start q)) (q_end q) (q_fs q) (q_over q) | None =>
  match skip_prefix (lit "enduid=") a with Some s => mkParams (q_start q) (str_to_uid s (q_end q)) (q_fs q) (q_over q) | None =>
  match skip_prefix (lit "fs=") a with
  | Some s => mkParams (q_start q) (q_end q) (Some (if (1 <? length s)%nat && Ascii.eqb (last s NUL) c_slash then removelast s else s)) (q_over q) | None =>
  match skip_prefix (lit "overwrite=") a with
  | Some s => mkParams (q_start q) (q_end q) (q_fs q) (match strtoll s with Some (Some x, []) => if to_int x <? 0 then 0 else to_int x | _ => 0 end) | None => q
  end end end end.

(** Answers from outside: PAM_USER (223), the uid and home directory (230), UID_MIN of login.defs (196) and of the build, the mounted file systems (243-250: device,
    directory), memory for the name of a device (282, 299), quotactl: the limits read (318) and whether they can be set (358). *)
Record env := mkEnv {
  e_user : option cstr; e_pw : cstr -> option (Z * cstr); e_min : option cstr; e_uidmin : Z; e_mounts : option (list (cstr * cstr)); e_mem : cstr -> bool;
  e_get : cstr -> Z -> option block; e_set : bool
}.
(** What is done to the outside: limits set with quotactl. *)
Inductive effect := SetQuota (device : cstr) (uid : Z) (b : block) (v : valid).
(** The directory without slashes at the end, modules/pam_setquota/pam_setquota.c:262-264. *)
Definition masked (dir : cstr) : cstr := rev (snd (span (fun c => Ascii.eqb c c_slash) (rev dir))).
(** The loop over the mounted file systems, modules/pam_setquota/pam_setquota.c:248-308: Some device (perhaps none), or None without memory. [size] is match_size. *)
Fixpoint find_device (E : env) (fs : option cstr) (home : cstr) (ms : list (cstr * cstr)) (found : option cstr) (size : nat) : option (option cstr) :=
  match ms with
  | [] => Some found
  | (dev, dir) :: ms =>
      match fs with
      | None =>
          let m := masked dir in
          if ((size <? length m)%nat || (Nat.eqb (length m) 0 && match dir with "/"%char :: _ => true | _ => false end)) &&
             match skip_prefix m home with Some ("/"%char :: _) => true | _ => false end
          then if negb (e_mem E dev) then None else find_device E fs home ms (Some dev) (length m)
          else find_device E fs home ms found size
      | Some f =>
          if streq f dir || streq f dev
          then if negb (e_mem E dev) then None else find_device E fs home ms (Some dev) size
          else find_device E fs home ms found size
      end
  end.
(** pam_sm_open_session, modules/pam_setquota/pam_setquota.c:170-384. *)
Definition open_session (E : env) (args : list cstr) : Z * list effect :=
  let start := match e_min E with Some v => str_to_uid v (e_uidmin E) | None => e_uidmin E end in
  let q := fold_left parse_param args (mkParams start 0 None 0) in
  match e_user E with
  | None | Some [] => (PAM_USER_UNKNOWN, [])
  | Some user =>
      match e_pw E user with
      | None => (PAM_USER_UNKNOWN, [])
      | Some (uid, home) =>
          if (uid <? q_start q) || ((q_start q <=? q_end q) && negb (q_start q =? 0) && (q_end q <? uid)) then (PAM_SUCCESS, [])
          else match e_mounts E with
          | None => (PAM_PERM_DENIED, [])
          | Some ms =>
              match find_device E (q_fs q) home ms None 0 with
              | None | Some None => (PAM_PERM_DENIED, [])
              | Some (Some dev) =>
                  match e_get E dev uid with
                  | None => (PAM_PERM_DENIED, [])
                  | Some b =>
                      if ((b_bsoft b =? 0) && (b_bhard b =? 0) && (b_isoft b =? 0) && (b_ihard b =? 0)) || (q_over q =? 1) then
                        match parse_dqblk args b with
                        | None => (PAM_PERM_DENIED, [])
                        | Some (b', v) =>
                            if negb (v_b v || v_i v || v_bt v || v_it v) then (PAM_IGNORE, [])
                            else if negb (e_set E) then (PAM_PERM_DENIED, [])
                            else (PAM_SUCCESS, [SetQuota dev uid b' v])
                        end
                      else (PAM_IGNORE, [])
                  end
              end
          end
      end
  end.
(** pam_sm_close_session, modules/pam_setquota/pam_setquota.c:386-391. *)
Definition close_session : Z * list effect := (PAM_SUCCESS, []).
