(** Model of modules/pam_issue/pam_issue.c. Logging is left out. *)
From Coq Require Import String Ascii List Arith ZArith Bool.
From Verif Require Import Base Str_Model Opt_Model.
Import ListNotations.

(** The file, modules/pam_issue/pam_issue.c:54-67, 93-99, 242: st_size, None when fstat fails; the bytes that can be read; whether reading
    ends in an error. *)
Record ifile := mkFile { f_size : option Z; f_bytes : list ascii; f_error : bool }.
(** The broken-down time, modules/pam_issue/pam_issue.c:139-151. *)
Record tm := mkTm { t_wday : Z; t_mon : Z; t_mday : Z; t_year : Z; t_hour : Z; t_min : Z; t_sec : Z }.
(** What the module learns from outside, modules/pam_issue/pam_issue.c: fopen (289); the item PAM_USER_PROMPT (294); uname (91);
    getdomainname (124), None when it fails or leaves nothing; localtime (142), None for a null pointer; ttyname(1) (155); the number of
    users (168-206), None for an error of logind; malloc of the buffer (86) or of the contents (59), realloc to a size (229), pam_asprintf (311), pam_set_item (321). *)
Record env := mkEnv { e_open : cstr -> option ifile; e_prompt : Z * option cstr; u_sys : cstr; u_node : cstr; u_release : cstr; u_version : cstr; u_machine : cstr;
  e_domain : option cstr; e_time : option tm; e_tty : option cstr; e_users : option Z; e_malloc : bool; e_realloc : Z -> bool; e_asprintf : bool; e_set : Z }.

(** The names, modules/pam_issue/pam_issue.c:131-137; outside the array undefined. *)
Definition name_of (names : list string) (i : Z) : res cstr :=
  if (i <? 0)%Z then UB else match nth_error names (Z.to_nat i) with Some n => Ok (lit n) | None => UB end.
(** printf's conversion %d. *)
Definition fmt_d (n : Z) : cstr := if (n <? 0)%Z then "-"%char :: decimal (- n) else decimal n.
(** printf's conversion %02d. *)
Definition fmt_02 (n : Z) : cstr := if (0 <=? n)%Z && (n <? 10)%Z then "0"%char :: fmt_d n else fmt_d n.
(** read_issue_raw, modules/pam_issue/pam_issue.c:46-73: the result and the text. *)
Definition read_raw (E : env) (f : ifile) : Z * cstr :=
  match f_size f with
  | None => (PAM_SERVICE_ERR, [])
  | Some n =>
      if negb (e_malloc E) then (PAM_BUF_ERR, [])
      else if (n <=? Z.of_nat (length (f_bytes f)))%Z then (PAM_SUCCESS, cut (firstn (Z.to_nat n) (f_bytes f))) else (PAM_SERVICE_ERR, [])
  end.
(** One character after a backslash, modules/pam_issue/pam_issue.c:101-216: the text; Error for the return at line 177. *)
Inductive piece := Text (s : cstr) | Error.
(** See [piece]. *)
Definition escape (E : env) (c : ascii) : res piece :=
  if Ascii.eqb c "s"%char then Ok (Text (u_sys E))
  else if Ascii.eqb c "n"%char then Ok (Text (u_node E))
  else if Ascii.eqb c "r"%char then Ok (Text (u_release E))
  else if Ascii.eqb c "v"%char then Ok (Text (u_version E))
  else if Ascii.eqb c "m"%char then Ok (Text (u_machine E))
  else if Ascii.eqb c "o"%char then Ok (Text (match e_domain E with Some d => d | None => [] end))
  else if Ascii.eqb c "d"%char then
    match e_time E with
    | None => UB
    | Some t => bind (name_of ["Sun"; "Mon"; "Tue"; "Wed"; "Thu"; "Fri"; "Sat"]%string (t_wday t)) (fun w =>
        bind (name_of ["Jan"; "Feb"; "Mar"; "Apr"; "May"; "Jun"; "Jul"; "Aug"; "Sep"; "Oct"; "Nov"; "Dec"]%string (t_mon t)) (fun m =>
        Ok (Text (w ++ lit " " ++ m ++ lit " " ++ fmt_d (t_mday t) ++ lit "  " ++ fmt_d (t_year t + 1900))%list)))
    end
  else if Ascii.eqb c "t"%char then
    match e_time E with
    | None => UB
    | Some t => Ok (Text (fmt_02 (t_hour t) ++ lit ":" ++ fmt_02 (t_min t) ++ lit ":" ++ fmt_02 (t_sec t))%list)
    end
  else if Ascii.eqb c "l"%char then
    Ok (Text (match e_tty E with Some t => match skip_prefix (lit "/dev/") t with Some s => s | None => t end | None => [] end))
  else if Ascii.eqb c "u"%char || Ascii.eqb c "U"%char then
    match e_users E with
    | None => Ok Error
    | Some n => Ok (Text (if Ascii.eqb c "U"%char then fmt_d n ++ lit " " ++ lit (if (n =? 1)%Z then "user" else "users") else fmt_d n)%list)
    end
  else Ok (Text (cut [c])).
(** Adding a piece to the buffer, modules/pam_issue/pam_issue.c:225-237: [size] is the size of the buffer; undefined when a byte is stored
    outside it; None when realloc fails. *)
Definition add (E : env) (b : list ascii) (size : Z) (s : cstr) : res (option (list ascii * Z)) :=
  let len := Z.of_nat (length s) in
  let size' := if (size <? Z.of_nat (length b) + len + 1)%Z then (size + (len + 1))%Z else size in
  if (size <? Z.of_nat (length b) + len + 1)%Z && negb (e_realloc E size') then Ok None
  else if (size' <? Z.of_nat (length b) + len)%Z then UB else Ok (Some ((b ++ s)%list, size')).
(** The loop of read_issue_quoted, modules/pam_issue/pam_issue.c:93-248; [err] is ferror at the end. *)
Fixpoint quoted (E : env) (err : bool) (bytes b : list ascii) (size : Z) : res (Z * cstr) :=
  let last := if (size <=? Z.of_nat (length b))%Z then UB else Ok (if err then (PAM_SERVICE_ERR, []) else (PAM_SUCCESS, b)) in
  match bytes with
  | [] => last
  | c :: rest =>
      if Ascii.eqb c "\"%char then
        match rest with
        | [] => last
        | k :: rest =>
            bind (escape E k) (fun p => match p with
              | Error => Ok (PAM_SERVICE_ERR, [])
              | Text s => bind (add E b size s) (fun o => match o with None => Ok (PAM_BUF_ERR, []) | Some (b, size) => quoted E err rest b size end)
              end)
        end
      else bind (add E b size (cut [c])) (fun o => match o with None => Ok (PAM_BUF_ERR, []) | Some (b, size) => quoted E err rest b size end)
  end.
(** read_issue_quoted, modules/pam_issue/pam_issue.c:75-250. *)
Definition read_quoted (E : env) (f : ifile) : res (Z * cstr) :=
  if negb (e_malloc E) then Ok (PAM_BUF_ERR, []) else quoted E (f_error f) (f_bytes f) [] 1024.
(** The options, modules/pam_issue/pam_issue.c:273-284: the file, and whether escapes are replaced. *)
Definition issue_arg (o : option cstr * bool) (a : cstr) : option cstr * bool :=
  match skip_prefix (lit "issue=") a with
  | Some v => (Some v, snd o)
  | None => if streq a (lit "noesc") then (fst o, false) else o
  end.
(** pam_sm_authenticate, modules/pam_issue/pam_issue.c:254-326; [done] is _user_prompt_set (44). The result, _user_prompt_set
    afterwards, and the value given to pam_set_item for PAM_USER_PROMPT. *)
Definition authenticate (E : env) (done : bool) (args : list cstr) : res (Z * bool * option cstr) :=
  if done then Ok (PAM_IGNORE, true, None)
  else
    let '(file, esc) := fold_left issue_arg args (None, true) in
    match e_open E (match file with Some f => f | None => lit "/etc/issue" end) with
    | None => Ok (PAM_SERVICE_ERR, true, None)
    | Some f =>
        let '(r, item) := e_prompt E in
        if negb (r =? PAM_SUCCESS)%Z then Ok (r, true, None)
        else
          bind (if esc then read_quoted E f else Ok (read_raw E f)) (fun '(r, text) =>
            if negb (r =? PAM_SUCCESS)%Z then Ok (r, true, None)
            else match item with
                 | Some old => if e_asprintf E then Ok (if (e_set E =? PAM_SUCCESS)%Z then PAM_IGNORE else e_set E, true, Some (text ++ old)%list) else Ok (PAM_BUF_ERR, true, None)
                 | None => Ok (if (e_set E =? PAM_SUCCESS)%Z then PAM_IGNORE else e_set E, true, Some text)
                 end)
    end.
