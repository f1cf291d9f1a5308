(** Model of modules/pam_succeed_if/pam_succeed_if.c. The modelled build has HAVE_INNETGR; logging is left out, and with it
    the options debug, audit, quiet, quiet_fail and quiet_success. *)
From Coq Require Import String Ascii List Arith ZArith Bool.
From Verif Require Import Base Num_Model Str_Model Opt_Model.
Import ListNotations.
Local Open Scope Z_scope.

(** What is used of struct passwd. *)
Record pw := mkPw { pw_name : cstr; pw_uid : Z; pw_gid : Z; pw_shell : cstr; pw_dir : cstr }.

(** What surrounds the module: the result of pam_get_user; the entry of the process's real user ID; getpwnam; the items (None:
    not set); pam_modutil_user_in_group_nam_nam; innetgr(3) with its four values as int; fnmatch(pattern, string, 0) == 0;
    whether strdup of a list of groups fails. Simplification: the data base answers the same each time, so that keeping the
    entry in *pwd (lines 299, 306 and 450) makes no difference; pw_shell and pw_dir are not NULL. *)
Record env := mkEnv {
  e_get_user : Z * cstr; e_self : option pw; e_getpwnam : cstr -> option pw;
  e_service : option cstr; e_ruser : option cstr; e_rhost : option cstr; e_tty : option cstr;
  e_ingroup : cstr -> cstr -> bool; e_innetgr : cstr -> option cstr -> cstr -> Z; e_fnmatch : cstr -> cstr -> bool; e_nomem : cstr -> bool }.

(** strtoll(s, &p, 0), C standard 7.24.1.8: the number as it stands, before it is cut to the range, and what follows; None when
    there is no number. *)
Definition strtoll0 (s : cstr) : option (Z * cstr) :=
  let '(neg, s1) := sign (skip_spaces s) in
  let '(v, n, r) :=
    match s1 with
    | z :: x :: d :: _ =>
        if Ascii.eqb z "0"%char && Ascii.eqb (tolower x) "x"%char && (hex_val d <? 16) then digits_in 16 (skipn 2 s1) 0 0
        else if Ascii.eqb z "0"%char then digits_in 8 s1 0 0 else digits_in 10 s1 0 0
    | z :: _ => if Ascii.eqb z "0"%char then digits_in 8 s1 0 0 else digits_in 10 s1 0 0
    | [] => (0, O, [])
    end in
  if Nat.eqb n 0 then None else Some (if neg then - v else v, r).

(** A number and nothing else, in the range of long long (errno is 0 then), modules/pam_succeed_if/pam_succeed_if.c:72-83.
    Simplification: errno is not cleared between the two numbers, but an error of the first is an error of the whole anyway. *)
Definition number (s : cstr) : option Z :=
  match strtoll0 s with
  | Some (v, []) => if (LONG_MIN <=? v) && (v <=? LONG_MAX) then Some v else None
  | _ => None
  end.

(** evaluate_num, modules/pam_succeed_if/pam_succeed_if.c:64-90. *)
Definition evaluate_num (left right : cstr) (cmp : Z -> Z -> bool) : Z :=
  match number left, number right with
  | Some l, Some r => if cmp l r then PAM_SUCCESS else PAM_AUTH_ERR
  | _, _ => PAM_SERVICE_ERR
  end.

(** eq, modules/pam_succeed_if/pam_succeed_if.c:94-97. *)
Definition c_eq (i j : Z) : bool := i =? j.
(** ne, modules/pam_succeed_if/pam_succeed_if.c:99-102. *)
Definition c_ne (i j : Z) : bool := negb (i =? j).
(** lt, modules/pam_succeed_if/pam_succeed_if.c:104-107. *)
Definition c_lt (i j : Z) : bool := i <? j.
(** le, modules/pam_succeed_if/pam_succeed_if.c:109-112. *)
Definition c_le (i j : Z) : bool := c_lt i j || c_eq i j.
(** gt, modules/pam_succeed_if/pam_succeed_if.c:114-117. *)
Definition c_gt (i j : Z) : bool := j <? i.
(** ge, modules/pam_succeed_if/pam_succeed_if.c:119-122. *)
Definition c_ge (i j : Z) : bool := c_gt i j || c_eq i j.

(** The loop of evaluate_inlist, modules/pam_succeed_if/pam_succeed_if.c:190-203. *)
Fixpoint inlist_loop (fuel : nat) (left right : cstr) : bool :=
  match fuel with
  | O => false
  | S fuel =>
      match strstr left right with
      | None => false
      | Some (a, p) =>
          let start := match a with [] => true | _ => Ascii.eqb (last a NUL) ":"%char end in
          let p := if start then skipn (length left) p else p in
          if start && match p with [] => true | c :: _ => Ascii.eqb c ":"%char end then true
          else match strchr ":"%char p with
               | None => false
               | Some r => inlist_loop fuel left (tl r)
               end
      end
  end.
(** evaluate_inlist, modules/pam_succeed_if/pam_succeed_if.c:185-204: each round makes the list shorter, so that the fuel is enough. *)
Definition inlist (left right : cstr) : bool := inlist_loop (S (length right)) left right.

(** The search of evaluate_ingroup and evaluate_notingroup through the groups, modules/pam_succeed_if/pam_succeed_if.c:223-230 and 246-253. *)
Definition some_group (E : env) (user right : cstr) : bool := existsb (fun g => e_ingroup E user g) (strtoks (lit ":") right).

(** The attributes that need the entry of the user, modules/pam_succeed_if/pam_succeed_if.c:300-305. *)
Definition needs_pw (left : cstr) : bool :=
  caseeq left (lit "uid") || caseeq left (lit "gid") || caseeq left (lit "shell") || caseeq left (lit "home") || caseeq left (lit "dir") || caseeq left (lit "homedir").

(** Truth as a PAM code, as at modules/pam_succeed_if/pam_succeed_if.c:134. *)
Definition verdict (b : bool) : Z := if b then PAM_SUCCESS else PAM_AUTH_ERR.
(** An item or the empty string, modules/pam_succeed_if/pam_succeed_if.c:328-351. *)
Definition item (i : option cstr) : cstr := match i with Some s => s | None => [] end.

(** What the attribute stands for, modules/pam_succeed_if/pam_succeed_if.c:299-356: the text or the error. *)
Definition resolve (E : env) (left user : cstr) (info : option pw) : cstr + Z :=
  if needs_pw left && match info with None => true | Some _ => false end then inr PAM_USER_UNKNOWN
  else if caseeq left (lit "login") || caseeq left (lit "name") || caseeq left (lit "user") then inl user
  else match info with
  | Some p =>
      if caseeq left (lit "uid") then inl (decimal (pw_uid p))
      else if caseeq left (lit "gid") then inl (decimal (pw_gid p))
      else if caseeq left (lit "shell") then inl (pw_shell p)
      else if caseeq left (lit "home") || caseeq left (lit "dir") || caseeq left (lit "homedir") then inl (pw_dir p)
      else if caseeq left (lit "service") then inl (item (e_service E))
      else if caseeq left (lit "ruser") then inl (item (e_ruser E))
      else if caseeq left (lit "rhost") then inl (item (e_rhost E))
      else if caseeq left (lit "tty") then inl (item (e_tty E))
      else inr PAM_SERVICE_ERR
  | None =>
      if caseeq left (lit "service") then inl (item (e_service E))
      else if caseeq left (lit "ruser") then inl (item (e_ruser E))
      else if caseeq left (lit "rhost") then inl (item (e_rhost E))
      else if caseeq left (lit "tty") then inl (item (e_tty E))
      else inr PAM_SERVICE_ERR
  end.

(** The comparison, modules/pam_succeed_if/pam_succeed_if.c:362-437. *)
Definition compare (E : env) (left qual right user : cstr) : Z :=
  if caseeq qual (lit "<") || caseeq qual (lit "lt") then evaluate_num left right c_lt
  else if caseeq qual (lit "<=") || caseeq qual (lit "le") then evaluate_num left right c_le
  else if caseeq qual (lit ">") || caseeq qual (lit "gt") then evaluate_num left right c_gt
  else if caseeq qual (lit ">=") || caseeq qual (lit "ge") then evaluate_num left right c_ge
  else if caseeq qual (lit "eq") then evaluate_num left right c_eq
  else if caseeq qual (lit "=") then verdict (streq left right)
  else if caseeq qual (lit "ne") then evaluate_num left right c_ne
  else if caseeq qual (lit "!=") then verdict (negb (streq left right))
  else if caseeq qual (lit "=~") || caseeq qual (lit "glob") then verdict (e_fnmatch E right left)
  else if caseeq qual (lit "!~") || caseeq qual (lit "noglob") then verdict (negb (e_fnmatch E right left))
  else if caseeq qual (lit "in") then verdict (inlist left right)
  else if caseeq qual (lit "notin") then verdict (negb (inlist left right))
  else if caseeq qual (lit "ingroup") then if e_nomem E right then PAM_BUF_ERR else verdict (some_group E user right)
  else if caseeq qual (lit "notingroup") then if e_nomem E right then PAM_BUF_ERR else verdict (negb (some_group E user right))
  else if caseeq qual (lit "innetgr") then verdict (e_innetgr E right (e_rhost E) user =? 1)
  else if caseeq qual (lit "notinnetgr") then verdict (e_innetgr E right (e_rhost E) user =? 0)
  else PAM_SERVICE_ERR.

(** evaluate, modules/pam_succeed_if/pam_succeed_if.c:291-438. *)
Definition evaluate (E : env) (user : cstr) (info : option pw) (left qual right : cstr) : Z :=
  match resolve E left user info with
  | inr e => e
  | inl v => compare E v qual right user
  end.

(** The words that are options wherever they stand, modules/pam_succeed_if/pam_succeed_if.c:523-540. *)
Definition is_option (a : cstr) : bool :=
  streq a (lit "debug") || streq a (lit "use_uid") || streq a (lit "quiet") || streq a (lit "quiet_fail") || streq a (lit "quiet_success") || streq a (lit "audit").

(** The walk over the arguments, modules/pam_succeed_if/pam_succeed_if.c:519-590: [left] and [qual] as they stand, [ret] the last
    result (PAM_SUCCESS when there was no condition, lines 584-588). *)
Fixpoint walk (E : env) (user : cstr) (info : option pw) (left qual : option cstr) (ret : Z) (args : list cstr) : Z :=
  match args with
  | [] => match left with Some _ => PAM_SERVICE_ERR | None => ret end
  | a :: args =>
      if is_option a then walk E user info left qual ret args
      else match left, qual with
           | None, _ => walk E user info (Some a) qual ret args
           | Some _, None => walk E user info left (Some a) ret args
           | Some l, Some q =>
               let ret := evaluate E user info l q a in
               if ret =? PAM_SUCCESS then walk E user info None None ret args else ret
           end
  end.

(** pam_succeed_if, modules/pam_succeed_if/pam_succeed_if.c:462-591, which all entry points but pam_sm_setcred call. *)
Definition succeed_if (E : env) (args : list cstr) : Z :=
  if existsb (streq (lit "use_uid")) args
  then match e_self E with
       | None => PAM_USER_UNKNOWN
       | Some p => walk E (pw_name p) (Some p) None None PAM_SUCCESS args
       end
  else let '(r, user) := e_get_user E in
       if r =? PAM_SUCCESS then walk E user (e_getpwnam E user) None None PAM_SUCCESS args else r.
