(** Model of modules/pam_env/pam_env.c, built without econf and without vendor directories. *)
From Coq Require Import String Ascii List Arith ZArith Bool.
From Verif Require Import Base Num_Model Str_Model Opt_Model Line_Model Env_Model.
Import ListNotations.
Local Open Scope Z_scope.

(** GOOD_LINE, BAD_LINE, DEFINE_VAR, UNDEFINE_VAR, modules/pam_env/pam_env.c:61-65. *)
Definition GOOD_LINE : Z := 0.
(** Line 62 there. *)
Definition BAD_LINE : Z := 100.
(** Line 64 there. *)
Definition DEFINE_VAR : Z := 101.
(** Line 65 there. *)
Definition UNDEFINE_VAR : Z := 102.

(** A member of struct var, modules/pam_env/pam_env.c:39-44 and 75: NULL, the address of quote, or an allocated string. *)
Inductive ptr := Null | Quote | Str (s : cstr).

(** Whether allocations succeed while one line is handled: strndup of the name (390) and of the k-th value (438), realloc to a size (559),
    strdup of the expanded default (false) and override (true) (721), asprintf (839), the two of pam_putenv. *)
Record room := mkRoom { r_name : bool; r_val : nat -> bool; r_grow : Z -> bool; r_dup : bool -> bool; r_text : bool; r_put1 : bool; r_put2 : bool }.

(** The characters of strcspn(ptr, " \t\n"), modules/pam_env/pam_env.c:384, 421, 432. *)
Definition stops : cstr := [c_space; c_tab; c_nl].
(** The characters of strspn(ptr, " \t"), modules/pam_env/pam_env.c:403. *)
Definition blanks : cstr := [c_space; c_tab].
(** The double quote. *)
Definition c_dq : ascii := chr 34.
(** The single quote. *)
Definition c_sq : ascii := chr 39.

(** The value at [p], modules/pam_env/pam_env.c:420-437: the value, what follows it, and whether it was quoted; None: a bad line. *)
Definition value_at (p : cstr) : option (cstr * cstr * bool) :=
  let plain := let '(v, t) := span (fun c => negb (among stops c)) p in Some (v, t, false) in
  match p with
  | c :: p' =>
      if Ascii.eqb c c_dq then
        match split_at c_dq p' with
        | None => None
        | Some (v, t) =>
            match t with
            | [] => Some (v, t, true)
            | x :: _ => if among stops x then Some (v, t, true) else None
            end
        end
      else plain
  | [] => plain
  end.

(** The loop of _parse_line, modules/pam_env/pam_env.c:402-451: the result and the members defval and override.  [q] is quoteflg, [k] the
    number of values allocated. *)
Fixpoint parse_args (val : nat -> bool) (fuel : nat) (q k : nat) (p : cstr) (d o : ptr) : res (Z * ptr * ptr) :=
  match fuel with
  | O => OutOfFuel
  | S n =>
      let '(sp, p1) := span (among blanks) p in
      match sp with
      | [] => Ok (GOOD_LINE, d, o)
      | _ =>
          match (match skip_prefix (lit "DEFAULT=") p1 with
                 | Some p2 => Some (false, p2)
                 | None => match skip_prefix (lit "OVERRIDE=") p1 with Some p2 => Some (true, p2) | None => None end
                 end) with
          | None => Ok (BAD_LINE, d, o)
          | Some (which, p2) =>
              match value_at p2 with
              | None => Ok (BAD_LINE, d, o)
              | Some (v, t, quoted) =>
                  let q := if quoted then S q else q in
                  let set x := if which then (d, x) else (x, o) in
                  match v with
                  | _ :: _ =>
                      if val k then let '(d', o') := set (Str v) in parse_args val n q (S k) t d' o'
                      else let '(d', o') := set Null in Ok (PAM_BUF_ERR, d', o')
                  | [] =>
                      match q with
                      | S q' => let '(d', o') := set Quote in parse_args val n q' k t d' o'
                      | O => parse_args val n q k t d o
                      end
                  end
              end
          end
      end
  end.

(** _parse_line, modules/pam_env/pam_env.c:367-459: the result, the name, defval and override.  The members are NULL before, 873 and 822-825. *)
Definition parse_line (R : room) (buffer : cstr) : res (Z * cstr * ptr * ptr) :=
  let '(name, p) := span (fun c => negb (among stops c)) buffer in
  if negb (r_name R) then Ok (PAM_BUF_ERR, [], Null, Null)
  else bind (parse_args (r_val R) (S (length p)) 0 0 p Null Null) (fun '(r, d, o) => Ok (r, name, d, o)).

(** The items that can be named, and the directory and shell of a user. *)
Record items := mkItems { i_user : option cstr; i_prompt : option cstr; i_tty : option cstr; i_ruser : option cstr; i_rhost : option cstr;
  i_pw : cstr -> option (cstr * cstr) }.

(** _pam_get_item_byname, modules/pam_env/pam_env.c:462-509: pam_get_item succeeds for these items. *)
Definition item_byname (I : items) (name : cstr) : option cstr :=
  let isdir := streq name (lit "HOME") in
  let issh := streq name (lit "SHELL") in
  let item := if streq name (lit "PAM_USER") || isdir || issh then i_user I
    else if streq name (lit "PAM_USER_PROMPT") then i_prompt I
    else if streq name (lit "PAM_TTY") then i_tty I
    else if streq name (lit "PAM_RUSER") then i_ruser I
    else if streq name (lit "PAM_RHOST") then i_rhost I
    else None in
  match item with
  | Some u => if isdir || issh then match i_pw I u with None => None | Some (dir, sh) => Some (if issh then sh else dir) end else Some u
  | None => None
  end.

(** SIZE_MAX of stdint.h, 64 bits. *)
Definition SIZE_MAX : Z := 18446744073709551615.
(** struct string_buffer, modules/pam_env/pam_env.c:68-72: the string, whose length is len, and size; NULL when size is 0. *)
Record sbuf := mkSbuf { b_str : cstr; b_size : Z }.
(** Its len. *)
Definition b_len (b : sbuf) : Z := Z.of_nat (length (b_str b)).

(** _strbuf_reserve, modules/pam_env/pam_env.c:534-569, in the arithmetic of size_t; None: it fails. *)
Definition reserve (grow : Z -> bool) (b : sbuf) (add : Z) : option sbuf :=
  let w n := n mod (SIZE_MAX + 1) in
  if add <? w (b_size b - b_len b) then Some b
  else if w (SIZE_MAX - add) <=? b_len b then None
  else
    let s := if (b_size b =? 0) && (add <? 64) then 64
      else if (SIZE_MAX / 2 <=? b_size b) || (w (b_size b * 2) <? w (b_len b + add + 1)) then w (b_len b + add + 1)
      else w (b_size b * 2) in
    if grow s then Some (mkSbuf (b_str b) s) else None.

(** _strbuf_add_char, modules/pam_env/pam_env.c:571-584, and _strbuf_add_string, 586-601: [s] and a NUL are written behind the string;
    undefined when they do not fit.  Ok None: it fails. *)
Definition add_string (grow : Z -> bool) (b : sbuf) (s : cstr) : res (option sbuf) :=
  match reserve grow b (Z.of_nat (length s)) with
  | None => Ok None
  | Some b' => if b_len b' + Z.of_nat (length s) + 1 <=? b_size b' then Ok (Some (mkSbuf (b_str b' ++ s) (b_size b'))) else UB
  end.

(** The loop of _expand_arg, modules/pam_env/pam_env.c:626-717.  [cutat]: where the string *value ends now, when a brace in it was
    overwritten (668); [pos]: orig - *value. *)
Fixpoint expand_loop (grow : Z -> bool) (env : option environ) (I : items) (fuel : nat) (orig : cstr) (pos : nat) (cutat : option nat) (b : sbuf)
  : res (Z * option nat * sbuf) :=
  match fuel with
  | O => OutOfFuel
  | S n =>
      let put s rest used cutat := bind (add_string grow b s) (fun b' =>
        match b' with None => Ok (PAM_BUF_ERR, cutat, b) | Some b' => expand_loop grow env I n rest (pos + used)%nat cutat b' end) in
      match orig with
      | [] => Ok (PAM_SUCCESS, cutat, b)
      | c :: r =>
          if Ascii.eqb c c_bslash then
            match r with
            | x :: r' => if among [c_bslash; "$"%char; "@"%char] x then put [x] r' 2%nat cutat else expand_loop grow env I n r (pos + 1)%nat cutat b
            | [] => expand_loop grow env I n r (pos + 1)%nat cutat b
            end
          else if Ascii.eqb c "$"%char || Ascii.eqb c "@"%char then
            match r with
            | x :: r' =>
                if negb (Ascii.eqb x "{"%char) then put [c] r 1%nat cutat
                else match split_at "}"%char r' with
                     | None => Ok (PAM_ABORT, cutat, b)
                     | Some (name, rest) =>
                         let cutat := Some (match cutat with Some a => a | None => (pos + 2 + length name)%nat end) in
                         bind (if Ascii.eqb c "$"%char then getenv env (Some name) else Ok (item_byname I name)) (fun v =>
                         match v with
                         | Some s => put s rest (3 + length name)%nat cutat
                         | None => expand_loop grow env I n rest (pos + 3 + length name)%nat cutat b
                         end)
                     end
            | [] => put [c] r 1%nat cutat
            end
          else put [c] r 1%nat cutat
      end
  end.

(** _expand_arg, modules/pam_env/pam_env.c:603-738: the result and *value afterwards; when it fails that is only freed, and given as it was.
    Undefined when the copy into the old string does not fit. *)
Definition expand_arg (grow : Z -> bool) (dup : bool) (env : option environ) (I : items) (value : cstr) : res (Z * cstr) :=
  if negb (existsb (among [c_bslash; "$"%char; "@"%char]) value) then Ok (PAM_SUCCESS, value)
  else bind (expand_loop grow env I (S (length value)) value 0 None (mkSbuf [] 0)) (fun '(r, cutat, b) =>
    if negb (r =? PAM_SUCCESS) then Ok (r, value)
    else
      let now := match cutat with Some n => Z.of_nat n | None => Z.of_nat (length value) end in
      if now <? b_len b then if dup then Ok (PAM_SUCCESS, b_str b) else Ok (PAM_BUF_ERR, value)
      else if b_len b <=? Z.of_nat (length value) then Ok (PAM_SUCCESS, b_str b) else UB).

(** Lines 762-769 for one member: expanded unless it is NULL or the address of quote. *)
Definition expand_ptr (grow : Z -> bool) (dup : bool) (env : option environ) (I : items) (p : ptr) : res (Z * ptr) :=
  match p with
  | Str s => bind (expand_arg grow dup env I s) (fun '(r, s') => Ok (r, Str s'))
  | _ => Ok (PAM_SUCCESS, p)
  end.

(** _check_var, modules/pam_env/pam_env.c:740-807: the result and var->value. *)
Definition check_var (R : room) (env : option environ) (I : items) (d o : ptr) : res (Z * ptr) :=
  bind (expand_ptr (r_grow R) (r_dup R false) env I d) (fun '(r1, d') =>
  if negb (r1 =? PAM_SUCCESS) then Ok (r1, Null)
  else bind (expand_ptr (r_grow R) (r_dup R true) env I o) (fun '(r2, o') =>
  if negb (r2 =? PAM_SUCCESS) then Ok (r2, Null)
  else match o' with
       | Str (_ :: _) => Ok (DEFINE_VAR, o')
       | _ => match d' with Null => Ok (UNDEFINE_VAR, Null) | _ => Ok (DEFINE_VAR, d') end
       end)).

(** _define_var, modules/pam_env/pam_env.c:830-851; "%s" of a value that is the address of quote gives nothing, and vasprintf fails when the
    text is longer than INT_MAX. *)
Definition define_var (R : room) (env : option environ) (name : cstr) (v : ptr) : res (Z * option environ) :=
  let value := match v with Str s => s | _ => [] end in
  if negb (r_text R) || (INT_MAX <? Z.of_nat (length name + 1 + length value)) then Ok (PAM_BUF_ERR, env)
  else putenv (negb (r_put1 R)) (negb (r_put2 R)) env (Some (name ++ c_eq :: value)%list).

(** One turn of the loop of _parse_config_file, modules/pam_env/pam_env.c:900-909: retval and the environment.  _undefine_var is 853-863. *)
Definition conf_line (R : room) (I : items) (env : option environ) (line : cstr) : res (Z * option environ) :=
  bind (parse_line R line) (fun '(r, name, d, o) =>
  if negb (r =? GOOD_LINE) then Ok (r, env)
  else bind (check_var R env I d o) (fun '(r, v) =>
    if r =? DEFINE_VAR then define_var R env name v
    else if r =? UNDEFINE_VAR then putenv (negb (r_put1 R)) (negb (r_put2 R)) env (Some name)
    else Ok (r, env))).

(** The loop, modules/pam_env/pam_env.c:899-916: the last retval. *)
Fixpoint conf_lines (rooms : nat -> room) (I : items) (k : nat) (ls : list cstr) (last : Z) (env : option environ) : res (Z * option environ) :=
  match ls with
  | [] => Ok (last, env)
  | l :: ls' => bind (conf_line (rooms k) I env l) (fun '(r, env') =>
      if negb (r =? PAM_SUCCESS) && negb (r =? BAD_LINE) && negb (r =? PAM_BAD_ITEM) then Ok (r, env')
      else conf_lines rooms I (S k) ls' r env')
  end.

(** read_file, modules/pam_env/pam_env.c:315-363: None for the content: it cannot be opened; [mem]: the allocations succeed.  A continuation
    cut off by the end of the file ends the loop 337 as well. *)
Definition read_file (mem : bool) (content : option (list ascii)) : Z * list cstr :=
  match content with
  | None => (PAM_IGNORE, [])
  | Some s => if mem then (PAM_SUCCESS, fst (file_lines NUL (split_lines s))) else (PAM_BUF_ERR, [])
  end.

(** _parse_config_file, modules/pam_env/pam_env.c:865-923, given what the file contains. *)
Definition parse_config_file (mem : bool) (rooms : nat -> room) (I : items) (content : option (list ascii)) (env : option environ) : res (Z * option environ) :=
  let '(r, ls) := read_file mem content in
  if negb (r =? PAM_SUCCESS) then Ok (r, env)
  else bind (conf_lines rooms I 0 ls PAM_SUCCESS env) (fun '(r, env') => Ok (if negb (r =? 0) then PAM_ABORT else PAM_SUCCESS, env')).

(** The quotes around a value removed, modules/pam_env/pam_env.c:1002-1007: [w] is what follows the first one. *)
Fixpoint unquote (w : cstr) : cstr :=
  match w with
  | [] => []
  | c :: w' => match w' with [] => if Ascii.eqb c c_dq || Ascii.eqb c c_sq then [] else [c] | _ => c :: unquote w' end
  end.

(** A line of the environment file from its first character on, modules/pam_env/pam_env.c:955-962; None: a comment. *)
Definition env_text (line : cstr) : option cstr :=
  let key := snd (span (among [c_space; c_nl; c_tab]) line) in
  match key with
  | c :: _ => if Ascii.eqb c c_hash then None else Some key
  | [] => Some key
  end.
(** What it passes to pam_putenv, modules/pam_env/pam_env.c:964-1008; None: the line is skipped.  isalnum as in the C locale. *)
Definition env_key (key : cstr) : option cstr :=
  let key := match skip_prefix (lit "export ") key with Some k => k | None => key end in
  let key := fst (span (fun c => negb (among [c_nl; c_hash] c)) key) in
  match key with
  | c :: _ =>
      if Ascii.eqb c c_eq then None
      else
        let '(name, rest) := span (fun c => isalnum c || Ascii.eqb c "_"%char) key in
        match rest with
        | [] => Some key
        | e :: v =>
            if negb (Ascii.eqb e c_eq) then None
            else match v with
                 | x :: w => if Ascii.eqb x c_dq || Ascii.eqb x c_sq then Some (name ++ c_eq :: unquote w)%list else Some key
                 | [] => Some key
                 end
        end
  | [] => Some []
  end.

(** One turn of the loop of _parse_env_file, modules/pam_env/pam_env.c:955-1027: retval and the environment. *)
Definition env_line (R : room) (env : option environ) (line : cstr) : res (Z * option environ) :=
  match env_text line with
  | None => Ok (PAM_SUCCESS, env)
  | Some key =>
      match env_key key with
      | None => Ok (PAM_SUCCESS, env)
      | Some kv =>
          bind (if existsb (fun c => Ascii.eqb c c_eq) kv then Ok true
                else bind (getenv env (Some kv)) (fun v => Ok (match v with Some _ => true | None => false end))) (fun go =>
          if go then putenv (negb (r_put1 R)) (negb (r_put2 R)) env (Some kv) else Ok (PAM_SUCCESS, env))
      end
  end.

(** The loop, modules/pam_env/pam_env.c:954-1028. *)
Fixpoint env_lines (rooms : nat -> room) (k : nat) (ls : list cstr) (env : option environ) : res (Z * option environ) :=
  match ls with
  | [] => Ok (PAM_SUCCESS, env)
  | l :: ls' => bind (env_line (rooms k) env l) (fun '(r, env') =>
      if negb (r =? PAM_SUCCESS) then Ok (r, env') else env_lines rooms (S k) ls' env')
  end.

(** _parse_env_file, modules/pam_env/pam_env.c:925-1034, given what the file contains. *)
Definition parse_env_file (mem : bool) (rooms : nat -> room) (content : option (list ascii)) (env : option environ) : res (Z * option environ) :=
  let '(r, ls) := read_file mem content in
  if negb (r =? PAM_SUCCESS) then Ok (if r =? PAM_IGNORE then PAM_SUCCESS else r, env) else env_lines rooms 0 ls env.

(** The options, modules/pam_env/pam_env.c:91-101. *)
Record opts := mkOpts { o_conf : option cstr; o_env : option cstr; o_read : Z; o_uenv : cstr; o_uread : Z }.
(** atoi, as glibc does it: the number strtol gives, cut to 32 bits. *)
Definition atoi (s : cstr) : Z := (fst (strtol s) + 2 ^ 31) mod 2 ^ 32 - 2 ^ 31.

(** One argument, modules/pam_env/pam_env.c:105-141; debug has no effect here. *)
Definition parse_opt (o : opts) (a : cstr) : opts :=
  if streq a (lit "debug") then o
  else match skip_prefix (lit "conffile=") a with
  | Some s => match s with [] => o | _ => mkOpts (Some s) (o_env o) (o_read o) (o_uenv o) (o_uread o) end
  | None =>
  match skip_prefix (lit "envfile=") a with
  | Some s => match s with [] => o | _ => mkOpts (o_conf o) (Some s) (o_read o) (o_uenv o) (o_uread o) end
  | None =>
  match skip_prefix (lit "user_envfile=") a with
  | Some s => match s with [] => o | _ => mkOpts (o_conf o) (o_env o) (o_read o) s (o_uread o) end
  | None =>
  match skip_prefix (lit "readenv=") a with
  | Some s => mkOpts (o_conf o) (o_env o) (atoi s) (o_uenv o) (o_uread o)
  | None =>
  match skip_prefix (lit "user_readenv=") a with
  | Some s => mkOpts (o_conf o) (o_env o) (o_read o) (o_uenv o) (atoi s)
  | None => o
  end end end end end.

(** _pam_parse, modules/pam_env/pam_env.c:91-147. *)
Definition pam_parse (args : list cstr) : opts := fold_left parse_opt args (mkOpts None None 1 (lit ".pam_environment") 0).

(** What the module does to the world, in order: it opens a file, takes on the user's privileges, gives them up. *)
Inductive event := Open (f : cstr) | Drop (user : cstr) | Regain.

(** What the module learns from outside: the items, whether a file can be opened and what is in it (with the user's privileges or not),
    whether it is there, memory by file (0 configuration, 1 environment, 2 the user's) and line, the outcome of pam_modutil_drop_priv,
    pam_modutil_regain_priv and asprintf. *)
Record world := mkWorld { w_items : items; w_open : bool -> cstr -> option (list ascii); w_stat : cstr -> bool; w_mem : nat -> bool; w_rooms : nat -> nat -> room;
  w_drop : bool; w_regain : bool; w_path : bool }.

(** handle_env, modules/pam_env/pam_env.c:1044-1106. *)
Definition handle_env (W : world) (args : list cstr) (env : option environ) : res (Z * option environ * list event) :=
  let o := pam_parse args in
  let conf := match o_conf o with Some f => f | None => lit "/etc/security/pam_env.conf" end in
  bind (parse_config_file (w_mem W 0) (w_rooms W 0) (w_items W) (w_open W false conf) env) (fun '(r1, env1) =>
  let ev1 := [Open conf] in
  bind (if negb (o_read o =? 0) && (r1 =? PAM_SUCCESS) then
          let f := match o_env o with Some f => f | None => lit "/etc/environment" end in
          bind (parse_env_file (w_mem W 1) (w_rooms W 1) (w_open W false f) env1) (fun '(r, e) => Ok (if r =? PAM_IGNORE then PAM_SUCCESS else r, e, ev1 ++ [Open f])%list)
        else Ok (r1, env1, ev1)) (fun '(r2, env2, ev2) =>
  if negb (o_uread o =? 0) && (r2 =? PAM_SUCCESS) then
    match item_byname (w_items W) (lit "PAM_USER") with
    | None => Ok (r2, env2, ev2)
    | Some u =>
        match i_pw (w_items W) u with
        | None => Ok (r2, env2, ev2)
        | Some (dir, _) =>
            if negb (w_path W) then Ok (PAM_BUF_ERR, env2, ev2)
            else let p := (dir ++ c_slash :: o_uenv o)%list in
            if negb (w_stat W p) then Ok (r2, env2, ev2)
            else if negb (w_drop W) then Ok (PAM_SESSION_ERR, env2, ev2)
            else bind (parse_config_file (w_mem W 2) (w_rooms W 2) (w_items W) (w_open W true p) env2) (fun '(r, e) =>
              let r := if w_regain W then r else PAM_SESSION_ERR in
              Ok (if r =? PAM_IGNORE then PAM_SUCCESS else r, e, ev2 ++ [Drop u; Open p; Regain])%list)
        end
    end
  else Ok (r2, env2, ev2))).
