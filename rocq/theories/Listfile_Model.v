(** Model of modules/pam_listfile/pam_listfile.c: accept or refuse by a list in a file. Logging (and with it the option
    quiet) is left out. *)
From Coq Require Import String Ascii List Arith ZArith Bool.
From Verif Require Import Base Num_Model Str_Model Opt_Model.
Import ListNotations.
Local Open Scope Z_scope.

(** citem when it is not 0: PAM_USER, PAM_TTY, PAM_RHOST, PAM_RUSER; modules/pam_listfile/pam_listfile.c:111-118. *)
Inductive kind := IUser | ITty | IRhost | IRuser.
(** extitem: 0, EI_GROUP, EI_SHELL; modules/pam_listfile/pam_listfile.c:36-37 and 121-127. *)
Inductive ext := ENone | EGroup | EShell.
(** apply_type and apply_val, modules/pam_listfile/pam_listfile.c:40-43. Simplification: APPLY_TYPE_NONE, which line 130 sets
    and lines 131-137 always replace, is left out. *)
Inductive apply := ANull | AUser (v : cstr) | AGroup (v : cstr).
(** The variables that the options set, modules/pam_listfile/pam_listfile.c:50-64: sense is None for -1, Some true for 1
    (deny) and Some false for 0 (allow). *)
Record opts := mkOpts { o_retval : Z; o_onerr : Z; o_item : option kind; o_ext : ext; o_sense : option bool; o_file : option cstr; o_apply : apply }.

(** The values at the start, modules/pam_listfile/pam_listfile.c:50-54, 59 and 70-71. *)
Definition opts0 : opts := mkOpts (-1) PAM_SERVICE_ERR None ENone None None ANull.

(** The first error sets retval, modules/pam_listfile/pam_listfile.c:93-94, 104-105, 140-141, 149-150, 155-156, 162-163 and 170-171. *)
Definition err (r : Z) (o : opts) : opts :=
  mkOpts (if o_retval o =? -1 then r else o_retval o) (o_onerr o) (o_item o) (o_ext o) (o_sense o) (o_file o) (o_apply o).

(** The value of item=, modules/pam_listfile/pam_listfile.c:110-128: an unknown one clears citem; extitem is set but never cleared. *)
Definition set_item (v : cstr) (o : opts) : opts :=
  let set i e := mkOpts (o_retval o) (o_onerr o) i e (o_sense o) (o_file o) (o_apply o) in
  if streq v (lit "user") then set (Some IUser) (o_ext o)
  else if streq v (lit "tty") then set (Some ITty) (o_ext o)
  else if streq v (lit "rhost") then set (Some IRhost) (o_ext o)
  else if streq v (lit "ruser") then set (Some IRuser) (o_ext o)
  else if streq v (lit "group") then set (Some IUser) EGroup
  else if streq v (lit "shell") then set (Some IUser) EShell
  else set None (o_ext o).

(** One option, modules/pam_listfile/pam_listfile.c:73-144. *)
Definition one_arg (o : opts) (a : cstr) : opts :=
  if streq a (lit "quiet") then o
  else match strchr "="%char a with
  | None => o
  | Some _ =>
    match skip_prefix (lit "onerr=") a with
    | Some v =>
        if streq v (lit "succeed") then mkOpts (o_retval o) PAM_SUCCESS (o_item o) (o_ext o) (o_sense o) (o_file o) (o_apply o)
        else if streq v (lit "fail") then mkOpts (o_retval o) PAM_SERVICE_ERR (o_item o) (o_ext o) (o_sense o) (o_file o) (o_apply o)
        else err PAM_SERVICE_ERR o
    | None =>
    match skip_prefix (lit "sense=") a with
    | Some v =>
        if streq v (lit "allow") then mkOpts (o_retval o) (o_onerr o) (o_item o) (o_ext o) (Some false) (o_file o) (o_apply o)
        else if streq v (lit "deny") then mkOpts (o_retval o) (o_onerr o) (o_item o) (o_ext o) (Some true) (o_file o) (o_apply o)
        else err (o_onerr o) o
    | None =>
    match skip_prefix (lit "file=") a with
    | Some v => mkOpts (o_retval o) (o_onerr o) (o_item o) (o_ext o) (o_sense o) (Some v) (o_apply o)
    | None =>
    match skip_prefix (lit "item=") a with
    | Some v => set_item v o
    | None =>
    match skip_prefix (lit "apply=") a with
    | Some v =>
        mkOpts (o_retval o) (o_onerr o) (o_item o) (o_ext o) (o_sense o) (o_file o)
          (match v with c :: v' => if Ascii.eqb c "@"%char then AGroup v' else AUser v | [] => AUser [] end)
    | None => err (o_onerr o) o
    end end end end end
  end.

(** The empty value of apply=, modules/pam_listfile/pam_listfile.c:166-167. *)
Definition bad_apply (a : apply) : bool :=
  match a with ANull => false | AUser [] | AGroup [] => true | _ => false end.

(** The options and the checks of them, modules/pam_listfile/pam_listfile.c:73-175. *)
Definition parse (args : list cstr) : opts :=
  let o := fold_left one_arg args opts0 in
  let o := match o_item o with None => err (o_onerr o) o | Some _ => o end in
  let o := match o_file o with None => err (o_onerr o) o | Some _ => o end in
  let o := match o_sense o with None => err (o_onerr o) o | Some _ => o end in
  if bad_apply (o_apply o) then err (o_onerr o) o else o.

(** What surrounds the module: the result of pam_get_user at line 196 (None: not PAM_SUCCESS) and of the one at line 230;
    the items, PAM_USER being the one after the first pam_get_user when that failed; pw_shell from pam_modutil_getpwnam;
    pam_modutil_user_in_group_nam_nam; lstat(2): writable by others, regular; what can be read of the file opened
    (None: fopen fails). Simplification: pam_get_item succeeds, which it does for these items and a handle that is not NULL
    (libpam/pam_item.c), and pw_shell is not NULL. *)
Record env := mkEnv {
  e_user : option cstr; e_user2 : option cstr; e_item : kind -> option cstr; e_shell : cstr -> option cstr;
  e_ingroup : cstr -> cstr -> bool; e_lstat : cstr -> option (bool * bool); e_read : cstr -> option (list ascii) }.

(** Whether apply= keeps its meaning, modules/pam_listfile/pam_listfile.c:178-189. *)
Definition used_apply (o : opts) : apply :=
  match o_item o with
  | Some IUser | Some IRuser => ANull
  | _ => match o_ext o with EGroup => ANull | _ => o_apply o end
  end.

(** The module is not meant for this user, modules/pam_listfile/pam_listfile.c:197-222. *)
Definition not_meant (E : env) (a : apply) : bool :=
  match e_user E with
  | Some (c :: u) =>
      match a with
      | AUser v => negb (streq (c :: u) v)
      | AGroup g => negb (e_ingroup E (c :: u) g)
      | ANull => false
      end
  | _ => false
  end.

(** The item PAM_USER after pam_get_user has been called: that sets it, libpam/pam_item.c:279-400. *)
Definition item_of (E : env) (k : kind) : option cstr :=
  match k with
  | IUser => match e_user E with Some u => Some u | None => e_item E IUser end
  | _ => e_item E k
  end.

(** Without /dev/ for a terminal, modules/pam_listfile/pam_listfile.c:235-240 and 316-320. *)
Definition norm_tty (k : kind) (s : cstr) : cstr :=
  match k with
  | ITty => match skip_prefix (lit "/dev/") s with Some r => r | None => s end
  | _ => s
  end.

(** The characters that end a line: return and newline, modules/pam_listfile/pam_listfile.c:313. *)
Definition line_end : cstr := [chr 13; c_nl].

(** One line of the file, modules/pam_listfile/pam_listfile.c:311-326: whether retval becomes 0. *)
Definition line_matches (E : env) (k : kind) (x : ext) (v : cstr) (line : list ascii) : bool :=
  match chomp line_end line with
  | [] => false
  | e =>
      match x with
      | EGroup => e_ingroup E v e
      | _ => streq (norm_tty k e) v
      end
  end.

(** Reading the file, modules/pam_listfile/pam_listfile.c:303-327. *)
Fixpoint scan (E : env) (k : kind) (x : ext) (v : cstr) (lines : list (list ascii)) : bool :=
  match lines with
  | [] => false
  | l :: ls => if line_matches E k x v l then true else scan E k x v ls
  end.

(** The decision by the file for the value [v], modules/pam_listfile/pam_listfile.c:278-351. *)
Definition by_file (E : env) (o : opts) (k : kind) (deny : bool) (file v : cstr) : Z :=
  match e_lstat E file with
  | None => o_onerr o
  | Some (wother, regular) =>
      if wother || negb regular then PAM_AUTH_ERR
      else match e_read E file with
           | None => o_onerr o
           | Some text =>
               let found := scan E k (o_ext o) v (lines_of text) in
               if (deny && negb found) || (negb deny && found) then PAM_SUCCESS else PAM_AUTH_ERR
           end
  end.

(** The value looked for, modules/pam_listfile/pam_listfile.c:247-271: the shell of the user named by the item, or the item. *)
Definition looked_for (E : env) (o : opts) (v : cstr) : option cstr :=
  match o_ext o with EShell => e_shell E v | _ => Some v end.

(** The item in hand, modules/pam_listfile/pam_listfile.c:235-271. *)
Definition by_value (E : env) (o : opts) (k : kind) (deny : bool) (file : cstr) (item : option cstr) : Z :=
  match item with
  | None => if deny then PAM_SUCCESS else PAM_AUTH_ERR
  | Some s =>
      match norm_tty k s with
      | [] => if deny then PAM_SUCCESS else PAM_AUTH_ERR
      | v => match looked_for E o v with
             | None => o_onerr o
             | Some v => by_file E o k deny file v
             end
      end
  end.

(** pam_listfile, modules/pam_listfile/pam_listfile.c:47-352, which all entry points but pam_sm_setcred call. *)
Definition listfile (E : env) (args : list cstr) : Z :=
  let o := parse args in
  if negb (o_retval o =? -1) then o_retval o
  else match o_item o, o_file o, o_sense o with
  | Some k, Some file, Some deny =>
      if not_meant E (used_apply o) then PAM_IGNORE
      else match item_of E k with
           | None =>
               match k with
               | IUser => match e_user2 E with None => PAM_SERVICE_ERR | Some u => by_value E o k deny file (Some u) end
               | _ => by_value E o k deny file None
               end
           | Some s => by_value E o k deny file (Some s)
           end
  | _, _, _ => o_onerr o  (* not reached: [parse] gives an error then *)
  end.
