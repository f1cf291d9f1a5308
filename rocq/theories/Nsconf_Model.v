(** Model of the configuration lines of pam_namespace: modules/pam_namespace/argv_parse.c and pam_namespace.c:485-963, 1106-1123.
    Logging and the freeing of memory are left out; allocations succeed. *)
From Coq Require Import String Ascii List Arith ZArith Bool.
From Verif Require Import Base Str_Model Opt_Model Nsopen_Model.
Import ListNotations.

(** The states STATE_WHITESPACE, STATE_TOKEN and STATE_QUOTED, modules/pam_namespace/argv_parse.c:39-41. *)
Inductive pstate := White | Token | Quoted.
(** The character that opens and closes quoting, modules/pam_namespace/argv_parse.c:85, 101. *)
Definition quote : ascii := chr 34.
(** *outcp++ = c, for a buffer of [size] bytes of which [b] are written. *)
Definition out (size : nat) (c : ascii) (b : list ascii) : res (list ascii) := if Nat.ltb (length b) size then Ok (b ++ [c])%list else UB.
(** The character after a backslash, modules/pam_namespace/argv_parse.c:105-117 (in front of a character). *)
Definition unescape (c : ascii) : ascii :=
  if Ascii.eqb c "n"%char then c_nl else if Ascii.eqb c "t"%char then c_tab else if Ascii.eqb c "b"%char then ascii_of_nat 8 else c.
(** The loop of argv_parse, modules/pam_namespace/argv_parse.c:60-119; [argv] holds the offsets of the words in the buffer, the last first.
    That argv has room (it grows by three) is left out, and so is the limit of INT_MAX words. *)
Fixpoint argv_loop (size : nat) (s : cstr) (state : pstate) (argv : list nat) (b : list ascii) : res (pstate * list nat * list ascii) :=
  match s with
  | [] => Ok (state, argv, b)
  | ch :: s' =>
      match state, isspace ch with
      | White, true => argv_loop size s' White argv b
      | _, _ =>
          let argv := match state with White => length b :: argv | _ => argv end in
          match state with
          | Quoted => if Ascii.eqb ch quote then argv_loop size s' Token argv b else bind (out size ch b) (argv_loop size s' Quoted argv)
          | _ =>
              if isspace ch then bind (out size NUL b) (argv_loop size s' White argv)
              else if Ascii.eqb ch quote then argv_loop size s' Quoted argv b
              else if Ascii.eqb ch c_bslash then
                match s' with
                | [] => bind (out size c_bslash b) (argv_loop size s' Token argv)
                | c2 :: s2 => bind (out size (unescape c2) b) (argv_loop size s2 Token argv)
                end
              else bind (out size ch b) (argv_loop size s' Token argv)
          end
      end
  end.
(** argv_parse, modules/pam_namespace/argv_parse.c:46-137: the words, each the C string in the buffer at its offset. *)
Definition argv_parse (s : cstr) : res (list cstr) :=
  let size := S (length s) in
  bind (argv_loop size s White [] []) (fun '(state, argv, b) =>
  bind (match state with White => Ok b | _ => out size NUL b end) (fun b =>
  Ok (rev (map (fun o => cut (skipn o b)) argv)))).

(** The variable whose name follows a dollar sign: its value and what follows the name; modules/pam_namespace/pam_namespace.c:493-502 and
    512-522. *)
Fixpoint variable (vars : list (cstr * cstr)) (s : cstr) : option (cstr * cstr) :=
  match vars with
  | [] => None
  | (n, v) :: vars => match skip_prefix n s with Some r => Some (v, r) | None => variable vars s end
  end.
(** The length of the result, modules/pam_namespace/pam_namespace.c:492-506; the subtraction in size_t wraps and is undone by the ++. *)
Fixpoint expanded_length (fuel : nat) (vars : list (cstr * cstr)) (s : cstr) : res nat :=
  match fuel with
  | O => OutOfFuel
  | S fuel =>
      match s with
      | [] => Ok 0
      | c :: s' =>
          match (if Ascii.eqb c "$"%char then variable vars s' else None) with
          | Some (v, r) => bind (expanded_length fuel vars r) (fun n => Ok (length v + n))
          | None => bind (expanded_length fuel vars s') (fun n => Ok (S n))
          end
      end
  end.
(** The second loop and the end, modules/pam_namespace/pam_namespace.c:509-529, for a buffer of [size] bytes of which [b] are written.
    stpcpy writes the value with a NUL, dst goes back by one, before the buffer if nothing was written, and the character there is
    written again. *)
Fixpoint expand_loop (fuel : nat) (vars : list (cstr * cstr)) (size : nat) (s : cstr) (b : list ascii) : res cstr :=
  match fuel with
  | O => OutOfFuel
  | S fuel =>
      match s with
      | [] => if Nat.ltb (length b) size then Ok b else UB
      | c :: s' =>
          match (if Ascii.eqb c "$"%char then variable vars s' else None) with
          | Some (v, r) =>
              let b' := (b ++ v)%list in
              if negb (Nat.ltb (length b') size) then UB
              else match b' with [] => UB | _ => expand_loop fuel vars size r b' end
          | None => bind (out size c b) (expand_loop fuel vars size s')
          end
      end
  end.
(** expand_variables, modules/pam_namespace/pam_namespace.c:485-530. *)
Definition expand_variables (vars : list (cstr * cstr)) (s : cstr) : res cstr :=
  bind (expanded_length (S (length s)) vars s) (fun n => expand_loop (S (length s)) vars (S n) s []).

(** enum polymethod, modules/pam_namespace/pam_namespace.h:136-143, without NONE. *)
Inductive polymethod := USER | CONTEXT | LEVEL | TMPDIR | TMPFS.
(** struct polydir_s, modules/pam_namespace/pam_namespace.h:165-183, as far as a line fills it; the flags of lines 113-118 are booleans. *)
Record poly := mkPoly { p_dir : cstr; p_rdir : cstr; p_prefix : cstr; p_method : polymethod; p_uids : list Z;
  p_exclusive : bool; p_create : bool; p_noinit : bool; p_shared : bool; p_iscript : bool; p_mntopts : bool;
  p_script : option cstr; p_opts : option cstr; p_mflags : Z; p_owner : Z; p_group : Z; p_mode : Z }.
(** What the parser learns from outside: getpwnam (uid and gid), getgrnam, strtoul(s, NULL, 0) with errno (None is an error), and
    NAMESPACE_D_DIR. *)
Record env := mkEnv { e_pw : cstr -> option (Z * Z); e_gr : cstr -> option Z; e_num : cstr -> option Z; e_ddir : cstr }.
(** (uid_t)ULONG_MAX. *)
Definition NOBODY : Z := 4294967295%Z.

(** parse_create_params, modules/pam_namespace/pam_namespace.c:532-588: mode, owner and group; None is -1. *)
Definition create_params (E : env) (params : cstr) : option (Z * Z * Z) :=
  match params with
  | c :: params =>
      if negb (Ascii.eqb c "="%char) then Some (NOBODY, NOBODY, NOBODY)
      else
        let '(m, next) := match split_at ","%char params with Some (a, b) => (a, Some b) | None => (params, None) end in
        let mode := match m with [] => NOBODY | _ => match e_num E m with Some v => (v mod 4294967296)%Z | None => NOBODY end end in
        match next with
        | None => Some (mode, NOBODY, NOBODY)
        | Some params =>
            let '(o, next) := match split_at ","%char params with Some (a, b) => (a, Some b) | None => (params, None) end in
            match (match o with [] => Some None | _ => match e_pw E o with Some pw => Some (Some pw) | None => None end end) with
            | None => None
            | Some pw =>
                let owner := match pw with Some (u, _) => u | None => NOBODY end in
                match next with
                | None | Some [] => Some (mode, owner, match pw with Some (_, g) => g | None => NOBODY end)
                | Some g => match e_gr E g with Some g => Some (mode, owner, g) | None => None end
                end
            end
        end
  | [] => Some (NOBODY, NOBODY, NOBODY)
  end.
(** parse_iscript_params, modules/pam_namespace/pam_namespace.c:590-608: the new init_script; None leaves it. *)
Definition iscript_params (E : env) (params : cstr) : option cstr :=
  match params with
  | c :: params =>
      if negb (Ascii.eqb c "="%char) then None
      else match params with
           | [] => None
           | p :: _ => if Ascii.eqb p "/"%char then Some params else Some (e_ddir E ++ params)%list
           end
  | [] => None
  end.
(** mntflags, modules/pam_namespace/pam_namespace.c:616-620, with the values of sys/mount.h. *)
Definition mntflags : list (cstr * Z) := [(lit "noexec", 8%Z); (lit "nosuid", 2%Z); (lit "nodev", 4%Z)].
(** The loop of filter_mntopts, modules/pam_namespace/pam_namespace.c:635-670; [size] is origlen + 1, [dest] what is written of the
    buffer (with the NUL that calloc left after it), None before it is allocated. The pieces are those between commas; an empty piece before a comma has opts == end. *)
Fixpoint filter_loop (size : nat) (l : list cstr) (dest : option (list ascii)) (flags : Z) : res (option cstr * Z) :=
  match l with
  | [] => Ok (dest, flags)
  | o :: l' =>
      match find (fun f => streq (fst f) o) mntflags with
      | Some f => filter_loop size l' dest (Z.lor flags (snd f))
      | None =>
          match o, l' with
          | [], _ :: _ => filter_loop size l' dest flags
          | _, _ =>
              let b := match dest with Some b => (b ++ [","%char] ++ o)%list | None => o end in
              if Nat.ltb (length b) size then filter_loop size l' (Some b) flags else UB
          end
      end
  end.
(** filter_mntopts, modules/pam_namespace/pam_namespace.c:626-673. *)
Definition filter_mntopts (opts : cstr) : res (option cstr * Z) :=
  match opts with [] => Ok (None, 0%Z) | _ => filter_loop (S (length opts)) (fields ","%char opts) None 0%Z end.

(** method_names, modules/pam_namespace/pam_namespace.c:680-681. *)
Definition method_of (s : cstr) : option polymethod :=
  if streq s (lit "user") then Some USER else if streq s (lit "context") then Some CONTEXT else if streq s (lit "level") then Some LEVEL
  else if streq s (lit "tmpdir") then Some TMPDIR else if streq s (lit "tmpfs") then Some TMPFS else None.
(** One flag, modules/pam_namespace/pam_namespace.c:706-742; None is a return of -1. No flag name is a prefix of another. *)
Definition parse_flag (E : env) (flag : cstr) (p : poly) : res (option poly) :=
  let '(mkPoly dir rdir prefix method uids excl create noinit shared iscript mntopts script opts mflags owner group mode) := p in
  match skip_prefix (lit "create") flag with
  | Some r =>
      Ok match create_params E r with
         | Some (m, o, g) => Some (mkPoly dir rdir prefix method uids excl true noinit shared iscript mntopts script opts mflags o g m)
         | None => None
         end
  | None =>
  match skip_prefix (lit "noinit") flag with
  | Some _ => Ok (Some (mkPoly dir rdir prefix method uids excl create true shared iscript mntopts script opts mflags owner group mode))
  | None =>
  match skip_prefix (lit "iscript") flag with
  | Some r =>
      let script := match iscript_params E r with Some x => Some x | None => script end in
      Ok (Some (mkPoly dir rdir prefix method uids excl create noinit shared true mntopts script opts mflags owner group mode))
  | None =>
  match skip_prefix (lit "shared") flag with
  | Some _ => Ok (Some (mkPoly dir rdir prefix method uids excl create noinit true iscript mntopts script opts mflags owner group mode))
  | None =>
  match skip_prefix (lit "mntopts") flag with
  | Some r =>
      match r, method with
      | c :: r, TMPFS =>
          if Ascii.eqb c "="%char then
            bind (filter_mntopts r) (fun '(opts, mflags) =>
            Ok (Some (mkPoly dir rdir prefix method uids excl create noinit shared iscript true script opts mflags owner group mode)))
          else Ok (Some (mkPoly dir rdir prefix method uids excl create noinit shared iscript true script opts mflags owner group mode))
      | _, _ => Ok (Some (mkPoly dir rdir prefix method uids excl create noinit shared iscript true script opts mflags owner group mode))
      end
  | None => Ok (Some p)
  end end end end end.
(** The while loop, modules/pam_namespace/pam_namespace.c:705-743. *)
Fixpoint parse_flags (E : env) (l : list cstr) (p : poly) : res (option poly) :=
  match l with
  | [] => Ok (Some p)
  | f :: l => bind (parse_flag E f p) (fun r => match r with None => Ok None | Some p => parse_flags E l p end)
  end.
(** parse_method, modules/pam_namespace/pam_namespace.c:675-746, for a fresh entry; strcmp of the NULL that strtok_r returns when there is
    no word is undefined. *)
Definition parse_method (E : env) (method : cstr) : res (option poly) :=
  match strtoks (lit ":") method with
  | [] => UB
  | m :: flags =>
      match method_of m with
      | None => Ok None
      | Some pm => parse_flags E flags (mkPoly [] [] [] pm [] false false false false false false None None 0 0 0 0)
      end
  end.

(** PATH_MAX of limits.h. *)
Definition PATH_MAX : Z := 4096%Z.
(** pam_sprintf(buffer, "%s", s) into PATH_MAX bytes, libpam/include/pam_inline.h: whether it fits. *)
Definition fits (s : cstr) : bool := (Z.of_nat (length s) <? PATH_MAX)%Z.
(** The uids, modules/pam_namespace/pam_namespace.c:896-938: unknown users are left out. *)
Definition parse_uids (E : env) (uids : cstr) : bool * list Z :=
  let '(excl, uids) := match uids with c :: r => if Ascii.eqb c "~"%char then (true, r) else (false, uids) | [] => (false, uids) end in
  (excl, flat_map (fun n => match e_pw E n with Some (u, _) => [u] | None => [] end) (fields ","%char uids)).
(** The line without leading white space, comment and newline, modules/pam_namespace/pam_namespace.c:770-794. *)
Definition trim_line (line : cstr) : cstr :=
  let l := snd (span isspace line) in
  let l := match split_at "#"%char l with Some (a, _) => a | None => l end in
  match split_at c_nl l with Some (a, _) => a | None => l end.
(** process_line, modules/pam_namespace/pam_namespace.c:756-963: the entry added, if any, and the result, 0 or PAM_SERVICE_ERR.
    [user] and [ruser] are names and home directories; [ignore] is PAMNS_IGN_CONFIG_ERR. *)
Definition process_line (E : env) (user ruser : cstr * cstr) (ignore : bool) (line : cstr) : res (option poly * Z) :=
  let vars (u : cstr * cstr) := [(lit "HOME", snd u); (lit "USER", fst u)] in
  let skipping := Ok (None, if ignore then 0%Z else PAM_SERVICE_ERR) in
  match trim_line line with
  | [] => Ok (None, 0%Z)
  | l =>
      bind (argv_parse l) (fun words =>
      match words with
      | config_dir :: config_prefix :: method :: rest =>
          bind (expand_variables (vars ruser) config_dir) (fun rdir =>
          bind (expand_variables (vars user) config_dir) (fun dir =>
          bind (expand_variables (vars user) config_prefix) (fun prefix =>
          let dir := strip_slashes dir in
          let rdir := strip_slashes rdir in
          match dir, rdir with
          | [], _ | _, [] => skipping
          | d0 :: _, _ =>
              bind (parse_method E method) (fun r =>
              match r with
              | None => skipping
              | Some p =>
                  if negb (fits dir && fits rdir && fits prefix) then skipping
                  else if negb (Ascii.eqb d0 "/"%char) then skipping
                  else if match p_method p with TMPFS => false | _ => negb (Ascii.eqb (hd NUL prefix) "/"%char) end then skipping
                  else match strstr (lit "..") dir, strstr (lit "..") prefix with
                       | None, None =>
                           let '(excl, uids) := match rest with u :: _ => parse_uids E u | [] => (false, []) end in
                           let '(mkPoly _ _ _ method _ _ create noinit shared iscript mntopts script opts mflags owner group mode) := p in
                           Ok (Some (mkPoly dir rdir prefix method uids excl create noinit shared iscript mntopts script opts mflags owner group mode), 0%Z)
                       | _, _ => skipping
                       end
              end)
          end)))
      | _ => skipping
      end)
  end.
(** ns_override, modules/pam_namespace/pam_namespace.c:1106-1123. *)
Definition ns_override (p : poly) (uid : Z) : bool := if existsb (Z.eqb uid) (p_uids p) then negb (p_exclusive p) else p_exclusive p.
(** The loop of parse_config_file over one file, modules/pam_namespace/pam_namespace.c:1048-1059; None is PAM_SERVICE_ERR. *)
Fixpoint parse_lines (E : env) (user ruser : cstr * cstr) (ignore : bool) (lines : list (list ascii)) (l : list poly) : res (option (list poly)) :=
  match lines with
  | [] => Ok (Some l)
  | line :: lines =>
      bind (process_line E user ruser ignore (cut line)) (fun '(p, r) =>
      if (r =? 0)%Z then parse_lines E user ruser ignore lines (match p with Some p => l ++ [p] | None => l end) else Ok None)
  end.
(** parse_config_file over the files in their order, modules/pam_namespace/pam_namespace.c:1030-1067; a file that cannot be opened is None.
    The choice of the files and the home directories are inputs. *)
Fixpoint parse_files (E : env) (user ruser : cstr * cstr) (ignore : bool) (files : list (option (list ascii))) (l : list poly) : res (option (list poly)) :=
  match files with
  | [] => Ok (Some l)
  | None :: _ => Ok None
  | Some f :: files => bind (parse_lines E user ruser ignore (lines_of f) l) (fun r => match r with None => Ok None | Some l => parse_files E user ruser ignore files l end)
  end.
