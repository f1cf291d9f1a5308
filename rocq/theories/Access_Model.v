(** Model of modules/pam_access/pam_access.c: the login access control table.
    The modelled build has HAVE_INNETGR, no VENDOR_SCONFIG_DIR; the audit record (HAVE_LIBAUDIT) has no influence
    on the result and is left out, and so is logging.  Tokens are values: the NUL bytes the code writes into them
    (lines 692, 764, 955) stay within the token at hand, which is not used again. *)
From Coq Require Import String Ascii List Arith ZArith Bool.
From Verif Require Import Base Num_Model Str_Model.
Import ListNotations.
Local Open Scope Z_scope.

(** AF_INET and AF_INET6. *)
Inductive fam := V4 | V6.
(** Comparison of families, modules/pam_access/pam_access.c:350. *)
Definition fam_eqb (a b : fam) : bool := match a, b with V4, V4 | V6, V6 => true | _, _ => false end.
(** A node of the list getaddrinfo(3) gives: ai_family and the address in ai_addr. *)
Record addr := mkAddr { a_fam : fam; a_bytes : list Z }.
(** What the hints of getaddrinfo(3) ask for: no hints; AF_INET; AF_UNSPEC. *)
Inductive hint := HNone | HInet | HUnspec.

(** gai_rv and res of struct login_info, modules/pam_access/pam_access.c:107-108: not asked yet (0 and NULL),
    failed (gai_rv not 0), the list obtained. *)
Inductive cache := Unasked | Failed | Got (l : list addr).
(** The other parts of struct login_info that vary during a run, modules/pam_access/pam_access.c:96 and 106. *)
Record item := mkItem { from : option cstr; from_remote : bool }.

Section Access.
(** fs and sep, modules/pam_access/pam_access.c:104-105. *)
Variables fs sep : cstr.
(** nodns and only_new_group_syntax, modules/pam_access/pam_access.c:100-103. *)
Variables nodns new_groups : bool.
(** item->user: pw_name and pw_uid. *)
Variable user : cstr.
Variable uid : Z.
(** pam_modutil_user_in_group_nam_nam and _nam_gid for that user. *)
Variable in_group : cstr -> bool.
Variable in_gid : Z -> bool.
(** innetgr(netgroup, machine, user, domain), with the system's domain. *)
Variable innetgr : cstr -> option cstr -> option cstr -> bool.
(** item->hostname, modules/pam_access/pam_access.c:98. *)
Variable hostname : option cstr.
(** inet_pton(3), inet_ntop(3), getaddrinfo(3), getnameinfo(3) with NI_NUMERICHOST (None: failure). *)
Variable pton : fam -> cstr -> option (list Z).
Variable ntop : fam -> list Z -> cstr.
Variable gai : hint -> cstr -> option (list addr).
Variable numeric : addr -> option cstr.
(** /dev/ followed by the name is a character device; is_device, modules/pam_access/pam_access.c:898-929. *)
Variable device : cstr -> bool.

(** string_match, modules/pam_access/pam_access.c:870-895. Simplification: ALL and YES are both [true]; they differ only for the audit record. *)
Definition string_match (tok : cstr) (s : option cstr) : bool :=
  if caseeq tok (lit "ALL") then true
  else match s with
       | Some s => caseeq tok s
       | None => caseeq tok (lit "NONE")
       end.

(** isipaddr, modules/pam_access/pam_access.c:273-310: the type and the bytes; the unused bytes of the sockaddr_storage stay 0 and
    are left out. *)
Definition isipaddr (s : cstr) : option (fam * list Z) :=
  match pton V4 s with
  | Some b => Some (V4, b)
  | None => match pton V6 s with Some b => Some (V6, b) | None => None end
  end.

(** is_local_addr, modules/pam_access/pam_access.c:313-327. *)
Definition is_local_addr (s : cstr) (f : fam) : bool :=
  match f with V4 => streq s (lit "127.0.0.1") | V6 => streq s (lit "::1") end.

(** byte_a[i] & byte_nm[i] for each byte, modules/pam_access/pam_access.c:363-383. *)
Fixpoint mask_bytes (a m : list Z) : list Z :=
  match a, m with x :: a, y :: m => Z.land x y :: mask_bytes a m | _, _ => [] end.
(** memcmp of the addresses, modules/pam_access/pam_access.c:387-392. *)
Fixpoint bytes_eqb (a b : list Z) : bool :=
  match a, b with
  | [], [] => true
  | x :: a, y :: b => (x =? y) && bytes_eqb a b
  | _, _ => false
  end.

(** are_addresses_equal, modules/pam_access/pam_access.c:335-393. *)
Definition addresses_equal (s0 s1 : cstr) (mask : option cstr) : bool :=
  match isipaddr s0, isipaddr s1 with
  | Some (f0, b0), Some (f1, b1) =>
      if negb (fam_eqb f0 f1) then is_local_addr s0 f0 && is_local_addr s1 f1
      else match match mask with Some m => pton f0 m | None => None end with
           | Some m => bytes_eqb (mask_bytes b0 m) (mask_bytes b1 m)
           | None => bytes_eqb b0 b1
           end
  | _, _ => false
  end.

(** The loop of number_to_netmask, modules/pam_access/pam_access.c:424-438: the bytes from index i on, [k] of them, that were all zero. *)
Fixpoint netmask_bytes (k : nat) (n : Z) : list Z :=
  match k with
  | O => []
  | S k =>
      if n >=? 8 then 255 :: netmask_bytes k (n - 8)
      else if n >? 0 then (255 * 2 ^ (8 - n)) mod 256 :: repeat 0 k
      else 0 :: repeat 0 k
  end.
(** number_to_netmask, modules/pam_access/pam_access.c:395-447; the buffer is large enough for every address. *)
Definition number_to_netmask (n : Z) (f : fam) : option cstr :=
  if n =? 0 then None
  else Some (ntop f (netmask_bytes (match f with V4 => 4 | V6 => 16 end) n)).

(** item->gai_rv and item->res consulted and set, modules/pam_access/pam_access.c:830-834 and 1049-1056. *)
Definition lookup (h : hint) (s : cstr) (c : cache) : option (list addr) * cache :=
  match c with
  | Failed => (None, Failed)
  | Got l => (Some l, c)
  | Unasked => match gai h s with Some l => (Some l, Got l) | None => (None, Failed) end
  end.

(** The inner loop over the addresses of the token, modules/pam_access/pam_access.c:1075-1092; None: getnameinfo failed. *)
Fixpoint some_equal (buf : cstr) (f : fam) (mask : option cstr) (l : list addr) : option bool :=
  match l with
  | [] => Some false
  | a :: l =>
      if negb (fam_eqb f (a_fam a)) then some_equal buf f mask l
      else match numeric a with
           | None => None
           | Some buf1 => if addresses_equal buf buf1 mask then Some true else some_equal buf f mask l
           end
  end.
(** The loop over the addresses of the remote host, modules/pam_access/pam_access.c:1062-1095. *)
Fixpoint any_equal (rl tl : list addr) (mask : option cstr) : bool :=
  match rl with
  | [] => false
  | a :: rl =>
      match numeric a with
      | None => false
      | Some buf =>
          match some_equal buf (a_fam a) mask tl with
          | None => false
          | Some true => true
          | Some false => any_equal rl tl mask
          end
      end
  end.
(** The loop when the remote host is given by its address, modules/pam_access/pam_access.c:1098-1113. The result of getnameinfo is not
    looked at; when it fails the buffer is read uninitialised. *)
Fixpoint numeric_equal (s : cstr) (tl : list addr) (mask : option cstr) : res bool :=
  match tl with
  | [] => Ok false
  | a :: tl =>
      match numeric a with
      | None => UB
      | Some buf1 => if addresses_equal s buf1 mask then Ok true else numeric_equal s tl mask
      end
  end.

(** The first part of network_netmask_match, modules/pam_access/pam_access.c:949-1036: the addresses of the token and the netmask. *)
Definition token_addresses (tok : cstr) : option (list addr * option cstr) :=
  match split_at c_slash tok with
  | Some (net, m) =>
      match isipaddr net with
      | None => None
      | Some (f, _) =>
          match isipaddr m with
          | Some _ => match gai HNone net with Some l => Some (l, Some m) | None => None end
          | None =>
              match strtol0 m with
              | (n, Some []) =>
                  if (n <? 0) || (match f with V4 => n >? 32 | V6 => n >? 128 end) then None
                  else match gai HNone net with Some l => Some (l, number_to_netmask n f) | None => None end
              | _ => None
              end
          end
      end
  | None =>
      match isipaddr tok with
      | Some _ => match gai HNone tok with Some l => Some (l, None) | None => None end
      | None =>
          if nodns then None
          else if Ascii.eqb (hd NUL tok) c_colon then None
          else if device tok then None
          else match gai HNone tok with Some l => Some (l, None) | None => None end
      end
  end.

(** network_netmask_match, modules/pam_access/pam_access.c:936-1119. *)
Definition network_match (tok s : cstr) (c : cache) : res (bool * cache) :=
  match token_addresses tok with
  | None => Ok (false, c)
  | Some (tl, mask) =>
      match isipaddr s with
      | None =>
          let '(l, c) := lookup HUnspec s c in
          match l with
          | None => Ok (false, c)
          | Some rl => Ok (any_equal rl tl mask, c)
          end
      | Some _ => bind (numeric_equal s tl mask) (fun b => Ok (b, c))
      end
  end.

(** remote_match, modules/pam_access/pam_access.c:812-866.  The token may be empty (user@ in the users field); the byte before it then is
    the NUL written over the @. *)
Definition remote_match (tok s : cstr) (c : cache) : res (bool * cache) :=
  if Ascii.eqb (hd NUL tok) "."%char then
    if (length tok <? length s)%nat && caseeq tok (skipn (length s - length tok) s) then Ok (true, c)
    else network_match tok s c
  else if Ascii.eqb (last_char tok) "."%char then
    let '(l, c) := lookup HInet s c in
    match l with
    | None => Ok (false, c)
    | Some l => Ok (existsb (fun a => fam_eqb (a_fam a) V4 && is_prefix tok (ntop V4 (a_bytes a) ++ lit ".")) l, c)
    end
  else network_match tok s c.

(** from_match, modules/pam_access/pam_access.c:775-810. *)
Definition from_match (tok : cstr) (it : item) (c : cache) : res (bool * cache) :=
  match from it with
  | None => Ok (false, c)
  | Some s =>
      if Ascii.eqb (hd NUL tok) "@"%char then Ok (innetgr (List.tl tok) (Some s) None, c)
      else if string_match tok (Some s) then Ok (true, c)
      else if caseeq tok (lit "LOCAL") then Ok (negb (from_remote it), c)
      else if from_remote it then remote_match tok s c
      else Ok (false, c)
  end.

(** tok[strspn(tok, "0123456789")] == 0, modules/pam_access/pam_access.c:645 and 729. *)
Definition only_digits (s : cstr) : bool := forallb isdigit s.
(** user_name_or_uid_match, modules/pam_access/pam_access.c:636-655. *)
Definition name_or_uid (tok : cstr) : bool :=
  if string_match tok (Some user) then true
  else if negb (only_digits tok) then false
  else string_match tok (Some (decimal uid)).

(** group_name_or_gid_match, modules/pam_access/pam_access.c:721-748; strtoul on a string of digits, whose value has to fit a gid_t of 32 bits. *)
Definition name_or_gid (tok : cstr) : bool :=
  if in_group tok then true
  else if negb (only_digits tok) then false
  else match tok with
       | [] => false
       | _ => let '(v, _, _) := digits tok 0 0 in if v <? 4294967296 then in_gid v else false
       end.
(** group_match, modules/pam_access/pam_access.c:752-770, on a token in parentheses. *)
Definition group_match (tok : cstr) : bool :=
  if (length tok <? 3)%nat then false else name_or_gid (removelast (List.tl tok)).

(** tok[0] == '(' and the last character is ')', modules/pam_access/pam_access.c:681. *)
Definition in_parens (tok : cstr) : bool :=
  Ascii.eqb (hd NUL tok) "("%char && Ascii.eqb (last_char tok) ")"%char.

(** The parts of a token user@host, modules/pam_access/pam_access.c:678-683: the first @ after the leading ones. *)
Definition split_user (tok : cstr) : option (cstr * cstr) :=
  let '(ats, rest) := span (Ascii.eqb "@"%char) tok in
  match split_at "@"%char rest with Some (a, b) => Some (ats ++ a, b) | None => None end.

(** user_match, modules/pam_access/pam_access.c:659-717, on a token that has no part after an @. *)
Definition user_match_plain (tok : cstr) : bool :=
  if in_parens tok then group_match tok
  else if Ascii.eqb (hd NUL tok) "@"%char then
    if Ascii.eqb (nth 1 tok NUL) "@"%char then
      match hostname with None => false | Some h => innetgr (skipn 2 tok) (Some h) (Some user) end
    else innetgr (List.tl tok) None (Some user)
  else if name_or_uid tok then true
  else negb new_groups && in_group tok.
(** user_match, modules/pam_access/pam_access.c:659-717; the part before the @ has no second one, so that the recursive call is [user_match_plain].
    The lookups for the host name have their own cache. *)
Definition user_match (tok : cstr) : res bool :=
  if in_parens tok then Ok (group_match tok)
  else match split_user tok with
       | Some (u, h) =>
           match hostname with
           | None => Ok false
           | Some _ =>
               if negb (user_match_plain u) then Ok false
               else bind (from_match h (mkItem hostname true) Unasked) (fun r => Ok (fst r))
           end
       | None => Ok (user_match_plain tok)
       end.

(** The loop of list_match, modules/pam_access/pam_access.c:584-595, over the tokens of the list. *)
Fixpoint list_loop (fn : cstr -> cache -> res (bool * cache)) (toks : list cstr) (inclusion matched result : bool) (c : cache)
  : res (bool * cache) :=
  match toks with
  | [] => Ok (result, c)
  | tok :: toks =>
      if caseeq tok (lit "EXCEPT") then
        if negb matched then Ok (result, c)
        else list_loop fn toks (negb inclusion) false result c
      else bind (fn tok c) (fun r =>
        let '(m, c) := r in
        if m then list_loop fn toks inclusion true inclusion c
        else list_loop fn toks inclusion matched result c)
  end.
(** list_match, modules/pam_access/pam_access.c:563-597. *)
Definition list_match (fn : cstr -> cache -> res (bool * cache)) (l : cstr) (c : cache) : res (bool * cache) :=
  list_loop fn (strtoks sep l) true false false c.

(** The fields of a line, modules/pam_access/pam_access.c:485-514, without what the line says: None for a line that is skipped. *)
Definition line_fields (l : list ascii) : option (cstr * cstr * cstr) :=
  let s := cut l in
  match s with
  | [] => None
  | c0 :: _ =>
      if negb (Ascii.eqb (last_char s) c_nl) then None
      else if Ascii.eqb c0 c_hash then None
      else
        let b := rtrim (removelast s) in
        match b with
        | [] => None
        | _ =>
            match strtok fs b with
            | None => None
            | Some (perm, r) =>
                match strtok fs r with
                | None => None
                | Some (users, r) =>
                    match strtok [c_nl] r with
                    | None => None
                    | Some (froms, _) =>
                        if Ascii.eqb (hd NUL perm) "+"%char || Ascii.eqb (hd NUL perm) "-"%char then Some (perm, users, froms)
                        else None
                    end
                end
            end
        end
  end.

(** The two list_match calls on a line, modules/pam_access/pam_access.c:518-532. *)
Definition line_match (it : item) (users froms : cstr) (c : cache) : res (bool * cache) :=
  bind (list_match (fun tok c => bind (user_match tok) (fun b => Ok (b, c))) users c) (fun r =>
    let '(m, c) := r in
    if m then list_match (fun tok c => from_match tok it c) froms c else Ok (false, c)).

(** The loop of login_access over the lines, modules/pam_access/pam_access.c:484-533, and the result, lines 550-557: NOMATCH is None; otherwise
    whether the first character of the line is a plus sign. *)
Fixpoint access_lines (it : item) (ls : list (list ascii)) (c : cache) : res (option bool * cache) :=
  match ls with
  | [] => Ok (None, c)
  | l :: ls =>
      match line_fields l with
      | None => access_lines it ls c
      | Some (_, users, froms) =>
          bind (line_match it users froms c) (fun r =>
            let '(m, c) := r in
            if m then Ok (Some (Ascii.eqb (hd NUL l) "+"%char), c) else access_lines it ls c)
      end
  end.

(** fopen(3) of a table: errno is ENOENT; another error; the contents. Simplification: a read error looks like the end
    of the file, as it does to the code. *)
Inductive opened := Missing | Unreadable | Contents (l : list ascii).
(** login_access, modules/pam_access/pam_access.c:451-558. *)
Definition login_access (it : item) (f : opened) (c : cache) : res (option bool * cache) :=
  match f with
  | Missing => Ok (None, c)
  | Unreadable => Ok (Some false, c)
  | Contents l => access_lines it (lines_of l) c
  end.

(** The loop over the files of access.d, modules/pam_access/pam_access.c:1234-1247. *)
Fixpoint access_files (it : item) (fl : list opened) (c : cache) : res (option bool * cache) :=
  match fl with
  | [] => Ok (None, c)
  | f :: fl =>
      bind (login_access it f c) (fun r =>
        let '(v, c) := r in
        match v with Some b => Ok (Some b, c) | None => access_files it fl c end)
  end.
End Access.

(** Options, struct login_info, modules/pam_access/pam_access.c:94-109: [o_file] None is the default. *)
Record opts := mkOpts { o_fs : cstr; o_sep : cstr; o_file : option cstr; o_new_groups : bool; o_nodns : bool }.
(** parse_args, modules/pam_access/pam_access.c:113-165; None: an accessfile cannot be opened. *)
Fixpoint parse_args (readable : cstr -> bool) (args : list cstr) (o : opts) : option opts :=
  match args with
  | [] => Some o
  | a :: args =>
      if is_prefix (lit "fieldsep=") a then
        parse_args readable args (mkOpts (skipn 9 a) (o_sep o) (o_file o) (o_new_groups o) (o_nodns o))
      else if is_prefix (lit "listsep=") a then
        parse_args readable args (mkOpts (o_fs o) (skipn 8 a) (o_file o) (o_new_groups o) (o_nodns o))
      else if is_prefix (lit "accessfile=") a then
        if readable (skipn 11 a) then
          parse_args readable args (mkOpts (o_fs o) (o_sep o) (Some (skipn 11 a)) (o_new_groups o) (o_nodns o))
        else None
      else if streq a (lit "nodefgroup") then
        parse_args readable args (mkOpts (o_fs o) (o_sep o) (o_file o) true (o_nodns o))
      else if streq a (lit "nodns") then
        parse_args readable args (mkOpts (o_fs o) (o_sep o) (o_file o) (o_new_groups o) true)
      else parse_args readable args o
  end.
(** The settings before the arguments are read, modules/pam_access/pam_access.c:119-124. *)
Definition default_opts : opts := mkOpts (lit ":") (lit ", " ++ [c_tab]) None false false.

(** base_name, modules/pam_access/pam_access.c:169-173. *)
Fixpoint base_name_from (s best : cstr) : cstr :=
  match s with
  | c :: s' => if Ascii.eqb c c_slash then base_name_from s' s' else base_name_from s' best
  | [] => best
  end.
(** base_name, modules/pam_access/pam_access.c:169-173. *)
Definition base_name (s : cstr) : cstr := base_name_from s s.
(** strcmp(a, b) <= 0, bytes compared as unsigned char. *)
Fixpoint str_leb (a b : cstr) : bool :=
  match a, b with
  | [], _ => true
  | _ :: _, [] => false
  | x :: a, y :: b => if (ord x <? ord y)%nat then true else if (ord y <? ord x)%nat then false else str_leb a b
  end.
(** qsort with compare_filename, modules/pam_access/pam_access.c:175-180 and 249, as an insertion sort. *)
Fixpoint insert_file (x : cstr) (l : list cstr) : list cstr :=
  match l with
  | [] => [x]
  | y :: l' => if str_leb (base_name x) (base_name y) then x :: l else y :: insert_file x l'
  end.
(** qsort as a whole. *)
Fixpoint sort_files (l : list cstr) : list cstr :=
  match l with [] => [] | x :: l => insert_file x (sort_files l) end.
(** read_access_dir, modules/pam_access/pam_access.c:188-255: [found] is what glob(3) gives (None: an error), [room] how many strdup calls
    succeed, [mem] whether the list can be allocated. *)
Definition read_access_dir (mem : bool) (found : option (list cstr)) (room : nat) : list cstr :=
  if mem then sort_files (firstn room (match found with Some l => l | None => [] end)) else [].

(** The device path removed, modules/pam_access/pam_access.c:1211-1217. *)
Definition strip_device (s : cstr) : cstr :=
  match s with
  | c :: s' => if Ascii.eqb c c_slash then match split_at c_slash s' with Some (_, r) => r | None => s' end else s
  | [] => []
  end.
(** The origin, modules/pam_access/pam_access.c:1172-1222: PAM_RHOST, PAM_TTY, ttyname(0), PAM_SERVICE. None: PAM_ABORT. *)
Definition origin (rhost tty stdin service : option cstr) : option item :=
  match rhost with
  | Some (c :: h) => Some (mkItem (Some (c :: h)) true)
  | _ =>
      match (match tty with Some t => Some t | None => match stdin with Some t => Some t | None => service end end) with
      | Some t => Some (mkItem (Some (strip_device t)) false)
      | None => None
      end
  end.

(** What pam_access asks of the system: getpwnam (the uid), group membership, netgroups, gethostname, the resolver, devices,
    files, glob(3), memory. *)
Record asys := mkAsys {
  y_pw : cstr -> option (cstr * Z);
  y_in_group : cstr -> bool; y_in_gid : Z -> bool;
  y_netgr : cstr -> option cstr -> option cstr -> bool;
  y_host : option cstr;
  y_pton : fam -> cstr -> option (list Z); y_ntop : fam -> list Z -> cstr;
  y_gai : hint -> cstr -> option (list addr); y_numeric : addr -> option cstr;
  y_device : cstr -> bool;
  y_file : cstr -> opened; y_glob : option (list cstr); y_mem : bool; y_room : nat
}.
(** PAM_ACCESS_CONFIG, modules/pam_access/pam_access.c:59. *)
Definition ACCESS_CONF : cstr := lit "/etc/security/access.conf".

(** pam_access, modules/pam_access/pam_access.c:1124-1261, which is every entry point except pam_sm_setcred; [user] None: pam_get_user failed. *)
Definition pam_access (y : asys) (user : option cstr) (args : list cstr) (rhost tty stdin service : option cstr) : res Z :=
  match user with
  | None => Ok PAM_USER_UNKNOWN
  | Some u =>
      match y_pw y u with
      | None => Ok PAM_USER_UNKNOWN
      | Some (name, uid) =>
          match parse_args (fun p => match y_file y p with Contents _ => true | _ => false end) args default_opts with
          | None => Ok PAM_ABORT
          | Some o =>
              match origin rhost tty stdin service with
              | None => Ok PAM_ABORT
              | Some it =>
                  let login := login_access (o_fs o) (o_sep o) (o_nodns o) (o_new_groups o) name uid (y_in_group y) (y_in_gid y)
                                 (y_netgr y) (y_host y) (y_pton y) (y_ntop y) (y_gai y) (y_numeric y) (y_device y) in
                  let files := access_files (o_fs o) (o_sep o) (o_nodns o) (o_new_groups o) name uid (y_in_group y) (y_in_gid y)
                                 (y_netgr y) (y_host y) (y_pton y) (y_ntop y) (y_gai y) (y_numeric y) (y_device y) in
                  bind (login it (y_file y (match o_file o with Some f => f | None => ACCESS_CONF end)) Unasked) (fun r =>
                    let '(v, c) := r in
                    bind (match v, o_file o with
                          | None, None => files it (map (y_file y) (read_access_dir (y_mem y) (y_glob y) (y_room y))) c
                          | _, _ => Ok (v, c)
                          end) (fun r =>
                      match fst r with Some false => Ok PAM_PERM_DENIED | _ => Ok PAM_SUCCESS end))
              end
          end
      end
  end.
