(** Model of the option handling of pam_unix. *)
From Coq Require Import String Ascii List Arith NArith ZArith Bool.
From Verif Require Import Base Num_Model.
Import ListNotations.
Local Open Scope Z_scope.

(** UNIX_Ctrls, modules/pam_unix/support.h:23-28. *)
Record uctrl := mkCtrl { token : option cstr; cmask : N; cflag : N; is_hash : bool }.

(** _ALL_ON_ on the 64-bit control word, modules/pam_unix/support.h:51. *)
Definition ALL_ON : N := 18446744073709551615.
(** The bits a row turns off, _ALL_ON_^(bits). *)
Definition allbut (bits : N) : N := N.lxor ALL_ON bits.
(** 015660420000, the bits turned off by every hash method, and 060, 0600, 01000, modules/pam_unix/support.h:116-149. *)
Definition HASHBITS : N := 0x6ec22000.
(** A power of two. *)
Definition bit (n : N) : N := N.shiftl 1 n.
(** A row of the table. *)
Definition row (t : option string) (m f : N) (h : bool) : uctrl := mkCtrl (option_map lit t) m f h.

(** unix_args, modules/pam_unix/support.h:110-150; the octal flags are written as powers of two (01 is bit 0, 0100 is
    bit 6, and so on). *)
Definition unix_args : list uctrl :=
  [ row None ALL_ON (bit 0) false;                                   (* UNIX__OLD_PASSWD *)
    row None ALL_ON (bit 1) false;                                   (* UNIX__VERIFY_PASSWD *)
    row None ALL_ON (bit 2) false;                                   (* UNIX__IAMROOT *)
    row (Some "audit"%string) ALL_ON (bit 3) false;
    row (Some "use_first_pass"%string) (allbut 48) (bit 4) false;
    row (Some "try_first_pass"%string) (allbut 48) (bit 5) false;
    row (Some "authtok_type="%string) ALL_ON (bit 6) false;
    row None (allbut 384) (bit 7) false;                             (* UNIX__PRELIM *)
    row None (allbut 384) (bit 8) false;                             (* UNIX__UPDATE *)
    row None ALL_ON (bit 9) false;                                   (* UNIX__NONULL *)
    row None ALL_ON (bit 10) false;                                  (* UNIX__QUIET *)
    row (Some "use_authtok"%string) ALL_ON (bit 11) false;
    row (Some "shadow"%string) ALL_ON (bit 12) false;
    row (Some "md5"%string) (allbut HASHBITS) (bit 13) true;
    row (Some "nullok"%string) (allbut 512) 0 false;
    row (Some "debug"%string) ALL_ON (bit 14) false;
    row (Some "nodelay"%string) ALL_ON (bit 15) false;
    row (Some "nis"%string) ALL_ON (bit 16) false;
    row (Some "bigcrypt"%string) (allbut HASHBITS) (bit 17) true;
    row (Some "likeauth"%string) ALL_ON (bit 18) false;
    row (Some "remember="%string) ALL_ON (bit 19) false;
    row (Some "noreap"%string) ALL_ON (bit 20) false;
    row (Some "broken_shadow"%string) ALL_ON (bit 21) false;
    row (Some "sha256"%string) (allbut HASHBITS) (bit 22) true;
    row (Some "sha512"%string) (allbut HASHBITS) (bit 23) true;
    row (Some "rounds="%string) ALL_ON (bit 24) false;
    row (Some "blowfish"%string) (allbut HASHBITS) (bit 25) true;
    row (Some "minlen="%string) ALL_ON (bit 26) false;
    row (Some "quiet"%string) ALL_ON (bit 27) false;
    row (Some "no_pass_expiry"%string) ALL_ON (bit 28) false;
    row (Some "des"%string) (allbut HASHBITS) 0 true;
    row (Some "gost_yescrypt"%string) (allbut HASHBITS) (bit 29) true;
    row (Some "yescrypt"%string) (allbut HASHBITS) (bit 30) true;
    row (Some "nullresetok"%string) ALL_ON (bit 31) false;
    row None ALL_ON (bit 32) false ].                                (* UNIX_EXPIRED_ONLY *)

(** Positions in the table, modules/pam_unix/support.h:65-106. *)
(** UNIX__IAMROOT, modules/pam_unix/support.h:67. *)
Definition IAMROOT : nat := 2.
(** UNIX_AUDIT, modules/pam_unix/support.h:69. *)
Definition AUDIT : nat := 3.
(** UNIX_USE_FIRST_PASS, modules/pam_unix/support.h:71. *)
Definition USE_FIRST_PASS : nat := 4.
(** UNIX_TRY_FIRST_PASS, modules/pam_unix/support.h:72. *)
Definition TRY_FIRST_PASS : nat := 5.
(** UNIX__PRELIM, modules/pam_unix/support.h:75. *)
Definition PRELIM : nat := 7.
(** UNIX__UPDATE, modules/pam_unix/support.h:76. *)
Definition UPDATE : nat := 8.
(** UNIX__NONULL, modules/pam_unix/support.h:77. *)
Definition NONULL : nat := 9.
(** UNIX__QUIET, modules/pam_unix/support.h:78. *)
Definition QUIET_ : nat := 10.
(** UNIX_USE_AUTHTOK, modules/pam_unix/support.h:79. *)
Definition USE_AUTHTOK : nat := 11.
(** UNIX_SHADOW, modules/pam_unix/support.h:80. *)
Definition SHADOW : nat := 12.
(** UNIX_MD5_PASS, modules/pam_unix/support.h:81. *)
Definition MD5_PASS : nat := 13.
(** UNIX__NULLOK, modules/pam_unix/support.h:82. *)
Definition NULLOK : nat := 14.
(** UNIX_DEBUG, modules/pam_unix/support.h:83. *)
Definition DEBUG : nat := 15.
(** UNIX_NODELAY, modules/pam_unix/support.h:84. *)
Definition NODELAY : nat := 16.
(** UNIX_NIS, modules/pam_unix/support.h:85. *)
Definition NIS : nat := 17.
(** UNIX_BIGCRYPT, modules/pam_unix/support.h:86. *)
Definition BIGCRYPT : nat := 18.
(** UNIX_LIKE_AUTH, modules/pam_unix/support.h:87. *)
Definition LIKE_AUTH : nat := 19.
(** UNIX_REMEMBER_PASSWD, modules/pam_unix/support.h:88. *)
Definition REMEMBER : nat := 20.
(** UNIX_NOREAP, modules/pam_unix/support.h:89. *)
Definition NOREAP : nat := 21.
(** UNIX_BROKEN_SHADOW, modules/pam_unix/support.h:90. *)
Definition BROKEN_SHADOW : nat := 22.
(** UNIX_SHA256_PASS, modules/pam_unix/support.h:92. *)
Definition SHA256_PASS : nat := 23.
(** UNIX_SHA512_PASS, modules/pam_unix/support.h:93. *)
Definition SHA512_PASS : nat := 24.
(** UNIX_ALGO_ROUNDS, modules/pam_unix/support.h:94. *)
Definition ROUNDS : nat := 25.
(** UNIX_BLOWFISH_PASS, modules/pam_unix/support.h:96. *)
Definition BLOWFISH_PASS : nat := 26.
(** UNIX_MIN_PASS_LEN, modules/pam_unix/support.h:97. *)
Definition MIN_PASS_LEN : nat := 27.
(** UNIX_QUIET, modules/pam_unix/support.h:98. *)
Definition QUIET : nat := 28.
(** UNIX_NO_PASS_EXPIRY, modules/pam_unix/support.h:99. *)
Definition NO_PASS_EXPIRY : nat := 29.
(** UNIX_DES, modules/pam_unix/support.h:100. *)
Definition DES : nat := 30.
(** UNIX_GOST_YESCRYPT_PASS, modules/pam_unix/support.h:101. *)
Definition GOST_YESCRYPT : nat := 31.
(** UNIX_YESCRYPT_PASS, modules/pam_unix/support.h:102. *)
Definition YESCRYPT : nat := 32.
(** UNIX_NULLRESETOK, modules/pam_unix/support.h:103. *)
Definition NULLRESETOK : nat := 33.
(** UNIX_EXPIRED_ONLY, modules/pam_unix/support.h:104. *)
Definition EXPIRED_ONLY : nat := 34.
(** UNIX_CTRLS_, modules/pam_unix/support.h:106. *)
Definition UNIX_CTRLS : nat := 35.

(** unix_args[x].flag. *)
Definition flag_of (x : nat) : N := match nth_error unix_args x with Some r => cflag r | None => 0%N end.
(** unix_args[x].mask. *)
Definition mask_of (x : nat) : N := match nth_error unix_args x with Some r => cmask r | None => 0%N end.
(** on, off, set, unset, modules/pam_unix/support.h:34-47. *)
Definition on (x : nat) (ctrl : N) : bool := negb (N.land (flag_of x) ctrl =? 0)%N.
(** off(x, ctrl), modules/pam_unix/support.h:40. *)
Definition off (x : nat) (ctrl : N) : bool := negb (on x ctrl).
(** set(x, ctrl), modules/pam_unix/support.h:46. *)
Definition set (x : nat) (ctrl : N) : N := N.lor (N.land ctrl (mask_of x)) (flag_of x).
(** unset(x, ctrl), modules/pam_unix/support.h:47. *)
Definition unset (x : nat) (ctrl : N) : N := N.land ctrl (N.lxor ALL_ON (flag_of x)).

(** UNIX_DES_CRYPT, modules/pam_unix/support.h:108. *)
Definition des_crypt (c : N) : bool :=
  off MD5_PASS c && off BIGCRYPT c && off SHA256_PASS c && off SHA512_PASS c && off BLOWFISH_PASS c &&
  off GOST_YESCRYPT c && off YESCRYPT c.

(** UNIX_DEFAULTS, modules/pam_unix/support.h:152. *)
Definition DEFAULTS : N := flag_of NONULL.

(** _unix_strtoi, modules/pam_unix/support.c:49-59: the value left in *result and whether it was accepted. *)
Definition strtoi (str : cstr) (minval : Z) : Z * bool :=
  let '(v, ep) := strtol str in
  match ep with
  | Some [] => if (v <? minval) || (INT_MAX <? v) then (minval, false) else (v, true)
  | _ => (minval, false)
  end.

(** The first row from number [j] on that satisfies [p]; loops of modules/pam_unix/support.c:103-108 and 125-132. *)
Fixpoint find_row (p : uctrl -> bool) (j : nat) (rows : list uctrl) : option (nat * uctrl) :=
  match rows with
  | [] => None
  | r :: rows => if p r then Some (j, r) else find_row p (S j) rows
  end.

(** strncasecmp(val, token, strlen(token)) == 0 for a hash method, modules/pam_unix/support.c:104-105. *)
Definition names_method (val : cstr) (r : uctrl) : bool :=
  match token r with
  | Some t => is_hash r && is_prefix (map tolower t) (map tolower val)
  | None => false
  end.
(** The argument starts with the token, modules/pam_unix/support.c:126-129. *)
Definition names_option (arg : cstr) (r : uctrl) : bool :=
  match token r with Some t => is_prefix t arg | None => false end.
(** strlen of the token. *)
Definition token_length (r : uctrl) : nat := match token r with Some t => length t | None => O end.

(** The values handed back besides the control word: *remember, *rounds, *pass_min_len; None is a NULL pointer. *)
Record vals := mkVals { v_remember : option Z; v_rounds : option Z; v_minlen : option Z }.

(** ctrl &= mask; ctrl |= flag. *)
Definition apply_row (r : uctrl) (ctrl : N) : N := N.lor (N.land ctrl (cmask r)) (cflag r).

(** One module argument, modules/pam_unix/support.c:120-179. Messages are left out. *)
Definition one_arg (arg : cstr) (s : N * vals) : N * vals :=
  let '(ctrl, v) := s in
  match find_row (names_option arg) 0 unix_args with
  | None => (ctrl, v)
  | Some (j, r) =>
    let str := skipn (token_length r) arg in
    if (j =? REMEMBER)%nat then
      match v_remember v with
      | None => (ctrl, v)
      | Some _ =>
        let '(n, ok) := strtoi str (-1) in
        if ok then (apply_row r ctrl, mkVals (Some (if 400 <? n then 400 else n)) (v_rounds v) (v_minlen v))
        else (ctrl, mkVals (Some n) (v_rounds v) (v_minlen v))
      end
    else if (j =? MIN_PASS_LEN)%nat then
      match v_minlen v with
      | None => (ctrl, v)
      | Some _ =>
        let '(n, ok) := strtoi str 0 in
        (if ok then apply_row r ctrl else ctrl, mkVals (v_remember v) (v_rounds v) (Some n))
      end
    else if (j =? ROUNDS)%nat then
      match v_rounds v with
      | None => (ctrl, v)
      | Some _ =>
        let '(n, ok) := strtoi str 0 in
        (if ok then apply_row r ctrl else ctrl, mkVals (v_remember v) (Some n) (v_minlen v))
      end
    else (apply_row r ctrl, v)
  end.

(** Flags of the service functions, libpam/include/security/_pam_types.h:97-124 and
    libpam/include/security/pam_modules.h:60-64. *)
Definition F_SILENT : N := 32768.
(** PAM_DISALLOW_NULL_AUTHTOK, libpam/include/security/_pam_types.h:103. *)
Definition F_DISALLOW_NULL : N := 1.
(** PAM_CHANGE_EXPIRED_AUTHTOK, libpam/include/security/_pam_types.h:124. *)
Definition F_CHANGE_EXPIRED : N := 32.
(** PAM_PRELIM_CHECK, libpam/include/security/pam_modules.h:60. *)
Definition F_PRELIM : N := 16384.
(** PAM_UPDATE_AUTHTOK, libpam/include/security/pam_modules.h:64. *)
Definition F_UPDATE : N := 8192.
(** flags & f. *)
Definition has (flags f : N) : bool := negb (N.land flags f =? 0)%N.

(** modules/pam_unix/support.c:75-98; [root] is getuid() == 0. *)
Definition manual_flags (root : bool) (flags : N) : N :=
  let c := DEFAULTS in
  let c := if root && negb (has flags F_CHANGE_EXPIRED) then set IAMROOT c else c in
  let c := if has flags F_CHANGE_EXPIRED then set EXPIRED_ONLY c else c in
  let c := if has flags F_UPDATE then set UPDATE c else c in
  let c := if has flags F_PRELIM then set PRELIM c else c in
  if has flags F_SILENT then set QUIET_ c else c.

(** modules/pam_unix/support.c:100-116. *)
Definition preset (method : option cstr) (c : N) : N :=
  match method with
  | None => c
  | Some val => match find_row (names_method val) 0 unix_args with None => c | Some (_, r) => apply_row r c end
  end.

(** modules/pam_unix/support.c:181-191. *)
Definition after_args (flags : N) (s : N * vals) : N * vals :=
  let '(c, v) := s in
  let v := match v_minlen v with
           | Some n => if des_crypt c && (8 <? n) then mkVals (v_remember v) (v_rounds v) (Some 8) else v
           | None => v
           end in
  ((if has flags F_DISALLOW_NULL then set NONULL c else c), v).

(** Assignment to *rounds, modules/pam_unix/support.c:193-214. *)
Definition set_rounds (v : vals) (n : Z) : vals := mkVals (v_remember v) (Some n) (v_minlen v).

(** modules/pam_unix/support.c:193-214; [defs] is pam_modutil_search_key on /etc/login.defs. *)
Definition rounds_from_defs (defs : cstr -> option cstr) (s : N * vals) : N * vals :=
  let '(c, v) := s in
  match v_rounds v with
  | Some _ =>
    if off ROUNDS c then
      let key := if on YESCRYPT c then Some (lit "YESCRYPT_COST_FACTOR")
                 else if on SHA256_PASS c || on SHA512_PASS c then Some (lit "SHA_CRYPT_MAX_ROUNDS")
                 else None in
      match key with
      | None => s
      | Some k => match defs k with
                  | None => s
                  | Some val => let '(n, ok) := strtoi val 0 in ((if ok then set ROUNDS c else c), set_rounds v n)
                  end
      end
    else s
  | None => s
  end.

(** modules/pam_unix/support.c:216-224. *)
Definition default_rounds (s : N * vals) : N * vals :=
  let '(c, v) := s in
  match v_rounds v with
  | Some _ =>
    if off ROUNDS c && (on BLOWFISH_PASS c || on GOST_YESCRYPT c || on YESCRYPT c) then (set ROUNDS c, set_rounds v 5)
    else s
  | None => s
  end.

(** modules/pam_unix/support.c:226-248; reading *rounds through a NULL pointer is undefined. *)
Definition sane_rounds (s : N * vals) : res (N * vals) :=
  let '(c, v) := s in
  if on ROUNDS c then
    if on GOST_YESCRYPT c || on YESCRYPT c then
      match v_rounds v with
      | None => UB
      | Some n => Ok (c, set_rounds v (if n <? 3 then 3 else if 11 <? n then 11 else n))
      end
    else if on BLOWFISH_PASS c then
      match v_rounds v with
      | None => UB
      | Some n => Ok (c, set_rounds v (if n <? 4 then 4 else if 31 <? n then 31 else n))
      end
    else if on SHA256_PASS c || on SHA512_PASS c then
      match v_rounds v with
      | None => UB
      | Some n =>
        if (n <? 1000) || (n =? INT_MAX) then Ok (unset ROUNDS c, set_rounds v 0)
        else if 10000000 <=? n then Ok (c, set_rounds v 9999999)
        else Ok s
      end
    else Ok s
  else Ok s.

(** _set_ctrl, modules/pam_unix/support.c:65-259. *)
Definition set_ctrl (root : bool) (flags : N) (defs : cstr -> option cstr) (v : vals) (argv : list cstr) : res (N * vals) :=
  let c := preset (defs (lit "ENCRYPT_METHOD")) (manual_flags root flags) in
  let s := fold_left (fun s a => one_arg a s) argv (c, v) in
  bind (sane_rounds (default_rounds (rounds_from_defs defs (after_args flags s)))) (fun s =>
  let '(c, v) := s in
  Ok ((if on AUDIT c then set DEBUG c else c), v)).
