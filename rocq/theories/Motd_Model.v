(** Model of modules/pam_motd/pam_motd.c: the message of the day. Logging is left out. Simplification throughout: allocations succeed. *)
From Coq Require Import String Ascii List Arith ZArith Bool.
From Verif Require Import Base Num_Model Str_Model Opt_Model.
Import ListNotations.

(** d_type of a directory entry as far as it matters, modules/pam_motd/pam_motd.c:208-228. *)
Inductive dtype := DReg | DLnk | DUnknown | DOther.
(** What the module learns from outside, modules/pam_motd/pam_motd.c: pam_get_user (310), whether the name is known (313) and
    pam_modutil_drop_priv (318) and pam_modutil_regain_priv (361) succeed; open (276, 340): None when it fails, else the contents, None when
    fstat or the reading of st_size bytes fails (49-55); scandir (181): the entries, None when it fails; lstat (217-223): is it a regular file or a
    symbolic link; pam_putenv (456). open, scandir and lstat happen after the change of privileges. *)
Record env := mkEnv { e_get_user : Z * cstr; e_known : cstr -> bool; e_drop : bool; e_regain : bool;
  e_open : cstr -> option (option (list ascii)); e_scan : cstr -> option (list (cstr * dtype)); e_lstat : cstr -> bool; e_putenv : Z }.

(** try_to_display_fd, modules/pam_motd/pam_motd.c:44-66: the messages shown. *)
Definition display_fd (contents : option (list ascii)) : list cstr :=
  match contents with
  | None => []
  | Some t =>
      if Nat.eqb (length t) 0 || (65536 <? Z.of_nat (length t))%Z then []
      else [cut (if Ascii.eqb (last t NUL) c_nl then removelast t else t)]
  end.

(** The number of places in the array, modules/pam_motd/pam_motd.c:92-95: one, and one for every delimiter but a first character. *)
Definition num_strs (delim : ascii) (arg : cstr) : nat := S (count_occ Ascii.ascii_dec (tl arg) delim).
(** pam_split_string, modules/pam_motd/pam_motd.c:74-116, for a string that is not empty: the tokens, and NULL in the places left. *)
Definition split_string (delim : ascii) (arg : cstr) : list (option cstr) :=
  let n := num_strs delim arg in
  let ts := firstn n (strtoks [delim] arg) in
  (map Some ts ++ repeat None (n - length ts))%list.

(** join_dir_strings, modules/pam_motd/pam_motd.c:122-132; None is NULL. *)
Definition join_dir (a : option cstr) (b : cstr) : option cstr :=
  match a with
  | None | Some [] => None
  | Some a => Some (if Ascii.eqb (last a NUL) "/"%char || match b with c :: _ => Ascii.eqb c "/"%char | [] => false end then a ++ b else a ++ "/"%char :: b)%list
  end.

(** The order of strcmp, C standard 7.24.4.2: bytes as unsigned char. *)
Fixpoint str_le (a b : cstr) : bool :=
  match a, b with
  | [], _ => true
  | _ :: _, [] => false
  | x :: a, y :: b => if Nat.eqb (nat_of_ascii x) (nat_of_ascii y) then str_le a b else Nat.ltb (nat_of_ascii x) (nat_of_ascii y)
  end.
(** qsort with compare_strings, modules/pam_motd/pam_motd.c:134-151, 252-253: the sorted names; equal ones are the same string. *)
Fixpoint insert (s : cstr) (l : list cstr) : list cstr :=
  match l with [] => [s] | t :: l' => if str_le s t then s :: l else t :: insert s l' end.
(** The whole of qsort, modules/pam_motd/pam_motd.c:252-253. *)
Definition sort (l : list cstr) : list cstr := fold_right insert [] l.

(** Which entries are kept, modules/pam_motd/pam_motd.c:200-232. *)
Definition kept (E : env) (dir : option cstr) (e : cstr * dtype) : bool :=
  match snd e with
  | DReg | DLnk => true
  | DUnknown => match join_dir dir (fst e) with None => false | Some p => e_lstat E p end
  | DOther => false
  end.
(** The entries of a directory, modules/pam_motd/pam_motd.c:179-189. opendir(NULL) is undefined. *)
Definition scan (E : env) (dir : option cstr) : res (list cstr) :=
  match dir with
  | None => UB
  | Some d => Ok (map fst (filter (kept E dir) (match e_scan E d with Some es => es | None => [] end)))
  end.
(** All the names, modules/pam_motd/pam_motd.c:179-250. Simplification: fewer than UINT_MAX names (190-193). *)
Fixpoint scan_all (E : env) (dirs : list (option cstr)) : res (list cstr) :=
  match dirs with
  | [] => Ok []
  | d :: dirs => bind (scan E d) (fun a => bind (scan_all E dirs) (fun b => Ok (a ++ b)%list))
  end.
(** The first directory that has the file, modules/pam_motd/pam_motd.c:267-285. *)
Fixpoint show_name (E : env) (dirs : list (option cstr)) (n : cstr) : list cstr :=
  match dirs with
  | [] => []
  | d :: dirs =>
      match join_dir d n with
      | None => show_name E dirs n
      | Some p => match e_open E p with Some c => display_fd c | None => show_name E dirs n end
      end
  end.
(** The loop over the sorted names, modules/pam_motd/pam_motd.c:255-286; [prev] is the name before. *)
Fixpoint show_names (E : env) (dirs : list (option cstr)) (prev : option cstr) (ns : list cstr) : list cstr :=
  match ns with
  | [] => []
  | n :: ns =>
      ((if match prev with Some p => streq n p | None => false end then [] else show_name E dirs n) ++ show_names E dirs (Some n) ns)%list
  end.
(** try_to_display_directories_with_overrides, modules/pam_motd/pam_motd.c:153-302. *)
Definition show_directories (E : env) (dirs : list (option cstr)) : res (list cstr) :=
  bind (scan_all E dirs) (fun ns => Ok (show_names E dirs None (sort ns))).

(** The first file that can be opened, modules/pam_motd/pam_motd.c:336-352. open(NULL) fails with EFAULT. *)
Fixpoint show_first (E : env) (paths : list (option cstr)) : list cstr :=
  match paths with
  | [] => []
  | p :: paths =>
      match match p with Some p => e_open E p | None => None end with
      | Some c => display_fd c
      | None => show_first E paths
      end
  end.

(** try_to_display with drop_privileges, modules/pam_motd/pam_motd.c:304-367. *)
Definition try_to_display (E : env) (paths dirs : option (list (option cstr))) : res (Z * list cstr) :=
  let '(r, user) := e_get_user E in
  if negb (r =? PAM_SUCCESS)%Z || negb (e_known E user) || negb (e_drop E) then Ok (PAM_SESSION_ERR, [])
  else
    let a := match paths with Some ps => show_first E ps | None => [] end in
    bind (match dirs with Some ds => show_directories E ds | None => Ok [] end)
      (fun b => Ok (if e_regain E then PAM_SUCCESS else PAM_SESSION_ERR, a ++ b)%list).

(** The options, modules/pam_motd/pam_motd.c:387-411: the values of motd= and motd_dir=; an empty one takes back those before it. *)
Definition motd_arg (o : option cstr * option cstr) (a : cstr) : option cstr * option cstr :=
  let value v := match v with [] => None | _ => Some v end in
  match skip_prefix (lit "motd=") a with
  | Some v => (value v, snd o)
  | None => match skip_prefix (lit "motd_dir=") a with Some v => (fst o, value v) | None => o end
  end.
(** pam_sm_open_session, modules/pam_motd/pam_motd.c:369-461, with the defaults of lines 29-30; [silent] is flags & PAM_SILENT. The
    result, the messages shown, and whether pam_putenv was called. *)
Definition open_session (E : env) (silent : bool) (args : list cstr) : res (Z * list cstr * bool) :=
  if silent then Ok (PAM_IGNORE, [], false)
  else
    let '(m, d) := match fold_left motd_arg args (None, None) with
                   | (None, None) => (Some (lit "/etc/motd:/run/motd:/usr/lib/motd"), Some (lit "/etc/motd.d:/run/motd.d:/usr/lib/motd.d"))
                   | o => o
                   end in
    bind (try_to_display E (option_map (split_string ":"%char) m) (option_map (split_string ":"%char) d))
      (fun '(r, ms) => Ok (if (r =? PAM_SUCCESS)%Z then (if (e_putenv E =? PAM_SUCCESS)%Z then PAM_IGNORE else e_putenv E, ms, true) else (r, ms, false))).
