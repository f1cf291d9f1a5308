(** Model of the program faillock, modules/pam_faillock/main.c: arguments, users, tally files, what is printed and recorded, and the exit status. Texts for stderr are one event;
    padding of columns is left out. *)
From Coq Require Import String Ascii List Arith ZArith Bool.
From Verif Require Import Base Str_Model.
Import ListNotations.
Local Open Scope Z_scope.

(** struct tally, modules/pam_faillock/faillock.h:55-62: the 52 bytes of source, status, time; reserved is left out. *)
Record raw := mkRaw { w_source : list ascii; w_status : Z; w_time : Z }.
(** MAX_RECORDS, modules/pam_faillock/faillock.c:111. *)
Definition MAX_RECORDS : nat := 1024.
(** The settings from the arguments, modules/pam_faillock/main.c:64-65 and struct options. *)
Record cmd := mkCmd { o_conf : option cstr; o_dir : option cstr; o_user : option cstr; o_reset : bool; o_legacy : bool }.
(** memset, modules/pam_faillock/main.c:67. *)
Definition no_cmd : cmd := mkCmd None None None false false.
(** The loop of args_parse, modules/pam_faillock/main.c:71-108: None for -1. *)
Fixpoint parse (args : list cstr) (c : cmd) : option cmd :=
  match args with
  | [] => Some c
  | a :: t =>
      if streq a (lit "--conf") then match t with [] | [] :: _ => None | v :: t => parse t (mkCmd (Some v) (o_dir c) (o_user c) (o_reset c) (o_legacy c)) end
      else if streq a (lit "--dir") then match t with [] | [] :: _ => None | v :: t => parse t (mkCmd (o_conf c) (Some v) (o_user c) (o_reset c) (o_legacy c)) end
      else if streq a (lit "--user") then match t with [] | [] :: _ => None | v :: t => parse t (mkCmd (o_conf c) (o_dir c) (Some v) (o_reset c) (o_legacy c)) end
      else if streq a (lit "--reset") then parse t (mkCmd (o_conf c) (o_dir c) (o_user c) true (o_legacy c))
      else if streq a (lit "--legacy-output") then parse t (mkCmd (o_conf c) (o_dir c) (o_user c) (o_reset c) true)
      else None
  end.

(** What open_tally gives for an existing user, modules/pam_faillock/faillock.c:54-108, with create: the file, which is there then; -1 with ENOENT, or with something else. *)
Inductive opening := Opens | NoDirectory | Fails.
(** Answers from outside: read_config_file (the directory it sets, if any; None: it fails; modules/pam_faillock/main.c:110), memory for the directory (117), whether the user exists (219),
    open_tally (225), ftruncate after interruptions (243), audit_open (250), read_tally (266), localtime (141), the names that scandir gives (294). *)
Record env := mkEnv {
  e_conf : option cstr -> option (option cstr); e_mem : bool; e_user : cstr -> bool; e_open : cstr -> opening; e_trunc : cstr -> bool; e_audit : bool; e_read : cstr -> bool;
  e_time : Z -> option cstr; e_scan : cstr -> option (list cstr)
}.
(** What is printed or recorded. [Old]: a line in the legacy format, with count, and time and source of the last failure. *)
Inductive event := Heading (user : cstr) | Line (time : cstr) (kind : string) (source : cstr) (valid : bool) | OldHeading | Old (user : cstr) (count : nat) (last : option (cstr * cstr)) | OldBroken (user : cstr)
  | Audit (user : cstr) (ok : bool) | Complaint.
(** The tally files of the directory by user, whether the legacy heading has been printed (179, 181-184), and the events. *)
Record state := mkSt { files : cstr -> option (list raw); headed : bool; events : list event }.
(** The file of one user is replaced: modules/pam_faillock/main.c:225 (created) and 243 (emptied). *)
Definition put (f : cstr -> option (list raw)) (u : cstr) (v : option (list raw)) : cstr -> option (list raw) := fun x => if streq x u then v else f x.

(** The bytes before a NUL, at most all of them: "%.52s", modules/pam_faillock/main.c:169-171. *)
Fixpoint upto (l : list ascii) : cstr := match l with [] => [] | c :: t => if Ascii.eqb c NUL then [] else c :: upto t end.
(** "%s" of the array, modules/pam_faillock/main.c:202-203: undefined if it has no NUL. *)
Definition whole (l : list ascii) : res cstr := if existsb (Ascii.eqb NUL) l then Ok (upto l) else UB.
(** A bit of the status, modules/pam_faillock/main.c:170-171; modules/pam_faillock/faillock.h:50-52. *)
Definition on (v bit : Z) : bool := negb (Z.land v bit =? 0).
(** print_in_new_format, modules/pam_faillock/main.c:149-173. *)
Definition show (E : env) (l : list raw) (user : cstr) : list event :=
  Heading user :: map (fun r => match e_time E (w_time r) with
                                | None => Complaint
                                | Some t => Line t (if on (w_status r) 2 then "RHOST" else if on (w_status r) 4 then "TTY" else "SVC") (upto (w_source r)) (on (w_status r) 1)
                                end) l.
(** print_in_legacy_format, modules/pam_faillock/main.c:175-208. *)
Definition show_old (E : env) (hd : bool) (l : list raw) (user : cstr) : res (list event) :=
  let pre := if hd then [] else [OldHeading] in
  match rev l with
  | [] => Ok (pre ++ [Old (firstn 15 user) 0 None])%list
  | r :: _ =>
      match e_time E (w_time r) with
      | None => Ok (pre ++ [OldBroken (firstn 15 user)])%list
      | Some t => bind (whole (w_source r)) (fun s => Ok (pre ++ [Old (firstn 15 user) (length l) (Some (t, s))])%list)
      end
  end.
(** do_user, modules/pam_faillock/main.c:210-285; read_tally gives at most MAX_RECORDS records (Faillock_Model.read_tally). *)
Definition do_user (E : env) (c : cmd) (user : cstr) (s : state) : res (Z * state) :=
  if negb (e_user E user) then Ok (1, mkSt (files s) (headed s) (events s ++ [Complaint])%list)
  else match e_open E user with
  | NoDirectory => Ok (0, s)
  | Fails => Ok (3, mkSt (files s) (headed s) (events s ++ [Complaint])%list)
  | Opens =>
      let l := match files s user with Some l => l | None => [] end in
      if o_reset c then
        let rv := e_trunc E user in
        let ev := ((if rv then [] else [Complaint]) ++ (if e_audit E then [Audit user rv] else []))%list in
        Ok (if rv then 0 else 4, mkSt (put (files s) user (Some (if rv then [] else l))) (headed s) (events s ++ ev)%list)
      else
        let f := put (files s) user (Some l) in
        if negb (e_read E user) then Ok (5, mkSt f (headed s) (events s ++ [Complaint])%list)
        else
          let l := firstn MAX_RECORDS l in
          if o_legacy c then bind (show_old E (headed s) l user) (fun ev => Ok (0, mkSt f true (events s ++ ev)%list))
          else Ok (0, mkSt f (headed s) (events s ++ show E l user)%list)
  end.
(** The names that do_allusers leaves out, modules/pam_faillock/main.c:301-305. *)
Definition is_dot (n : cstr) : bool := streq n (lit ".") || streq n (lit "..").
(** Its loop, modules/pam_faillock/main.c:300-308: results of do_user are not looked at. *)
Fixpoint users (E : env) (c : cmd) (names : list cstr) (s : state) : res state :=
  match names with
  | [] => Ok s
  | n :: t => if is_dot n then users E c t s else bind (do_user E c n s) (fun '(_, s) => users E c t s)
  end.
(** get_tally_dir after args_parse, modules/pam_faillock/faillock_config.c:265-268 and modules/pam_faillock/main.c:110-122: None if args_parse fails there. *)
Definition tally_dir (E : env) (c : cmd) : option cstr :=
  match e_conf E (o_conf c) with
  | None => None
  | Some d =>
      match o_dir c with
      | Some v => if e_mem E then Some v else None
      | None => Some match d with Some d => d | None => lit "/var/run/faillock" end
      end
  end.
(** main, modules/pam_faillock/main.c:316-331, with do_allusers (287-312) and the arguments after the name of the program. *)
Definition main (E : env) (args : list cstr) (s : state) : res (Z * state) :=
  let failed code := Ok (code, mkSt (files s) (headed s) (events s ++ [Complaint])%list) in
  match parse args no_cmd with
  | None => failed 1
  | Some c =>
      match tally_dir E c with
      | None => failed 1
      | Some dir =>
          match o_user c with
          | Some u => do_user E c u s
          | None =>
              match e_scan E dir with
              | None => failed 2
              | Some names => bind (users E c names s) (fun s => Ok (0, s))
              end
          end
      end
  end.
