(** Model of pam_time and pam_group: reading rules, logic lists, time ranges.  The functions up to check_time are the same
    in both modules; lines are those of modules/pam_time/pam_time.c. *)
From Coq Require Import String Ascii List Arith NArith ZArith Bool.
From Verif Require Import Base.
Import ListNotations.
Local Open Scope Z_scope.

(** ** Reading fields *)
(** PAM_TIME_BUFLEN, modules/pam_time/pam_time.c:41. *)
Definition BUFLEN : nat := 1000.
(** STATE_*, modules/pam_time/pam_time.c:126-129. *)
Inductive state := SNl | SComment | SField | SEof.
(** The file being read: the bytes still to come, and whether an error waits behind them instead of the end of the file. *)
Record file := mkFile { data : list ascii; bad : bool }.
(** read_field's buffer and descriptor between two calls: not yet opened ( *buf is NULL); open with the bytes of the buffer from
    *from on (none when *from is 0) and the descriptor (None is -1); dropped for good. *)
Inductive reader := RStart | ROpen (keep : list ascii) (fd : option file) | RGone.

(** The bytes before the first NUL: what shift_buf moves, modules/pam_time/pam_time.c:104-112. *)
Fixpoint before_nul (l : list ascii) : list ascii :=
  match l with c :: l => if Ascii.eqb c NUL then [] else c :: before_nul l | [] => [] end.
(** trim_spaces, modules/pam_time/pam_time.c:114-124, on the characters written so far, the last one first. *)
Fixpoint trim_rev (r : list ascii) : list ascii :=
  match r with c :: r' => if Ascii.eqb c " "%char then trim_rev r' else r | [] => [] end.
(** The field as a string after trim_spaces. *)
Definition trimmed (acc : list ascii) : cstr := rev (trim_rev acc).

(** The loop over the buffer, modules/pam_time/pam_time.c:195-244: whether a line or field end was found, the state, the
    characters written (last first), the bytes after the one found.  Bytes behind [src] are not changed by the loop. *)
Fixpoint scan (st : state) (onspace : bool) (acc src : list ascii) : bool * state * list ascii * list ascii :=
  match src with
  | [] => (false, st, acc, [])
  | c :: r =>
    if Ascii.eqb c NUL then (false, st, acc, [])
    else if match st with SComment => negb (Ascii.eqb c c_nl) | _ => false end then scan st onspace acc r
    else if Ascii.eqb c c_nl then (true, SNl, acc, r)
    else if Ascii.eqb c c_tab || Ascii.eqb c c_space then
      (if onspace then scan st onspace acc r else scan st true (c_space :: acc) r)
    else if Ascii.eqb c "!"%char then scan st true ("!"%char :: acc) r
    else if Ascii.eqb c c_hash then scan SComment onspace acc r
    else if Ascii.eqb c ";"%char then (true, SField, acc, r)
    else match r with
         | n :: r' => if Ascii.eqb c c_bslash && Ascii.eqb n c_nl then scan st onspace acc r' else scan st false (c :: acc) r
         | [] => scan st false (c :: acc) r
         end
  end.

(** Filling the buffer, modules/pam_time/pam_time.c:161-181: pam_modutil_read (C30) gives as many bytes as asked for unless the
    file ends; None is an error. *)
Definition fill (keep : list ascii) (fd : option file) : option (list ascii * option file) :=
  match fd with
  | None => Some (keep, None)
  | Some f =>
    let room := (BUFLEN - length keep)%nat in
    if (room =? 0)%nat then Some (keep, fd)
    else if (room <=? length (data f))%nat then Some ((keep ++ firstn room (data f))%list, Some (mkFile (skipn room (data f)) (bad f)))
    else if bad f then None
    else Some ((keep ++ data f)%list, None)
  end.

(** read_field, modules/pam_time/pam_time.c:131-257; [opens] is what open(2) gives on the first call (None also when calloc
    fails).  The result: reader, *state, and the string in *buf (None is NULL). *)
Definition read_field (opens : option file) (rd : reader) (st : state) : reader * state * option cstr :=
  let go st keep fd :=
    match fill keep fd with
    | None => (RGone, SEof, None)
    | Some ([], _) => (RGone, SEof, None)
    | Some (buf, fd) =>
      let '(found, st, acc, rest) := scan st true [] buf in
      if (found : bool) then (ROpen (before_nul rest) fd, st, Some (trimmed acc))
      else match st with
           | SComment => (ROpen [] fd, SComment, Some (trimmed acc))
           | _ => (ROpen [] fd, SComment, Some [])
           end
    end in
  match rd with
  | ROpen keep fd => go st keep fd
  | RStart | RGone => match opens with
                      | None => (RGone, SEof, None)
                      | Some f => go SNl [] (Some f)
                      end
  end.

(** ** Logic lists *)
(** The characters of names, modules/pam_time/pam_time.c:289-290. *)
Definition name_char (c : ascii) : bool :=
  isalpha c || Ascii.eqb c "*"%char || isdigit c || Ascii.eqb c "_"%char || Ascii.eqb c "-"%char || Ascii.eqb c "."%char ||
  Ascii.eqb c "/"%char || Ascii.eqb c ":"%char.
(** The operators, modules/pam_time/pam_time.c:279-281. *)
Definition oper_char (c : ascii) : bool := Ascii.eqb c "&"%char || Ascii.eqb c "|"%char || Ascii.eqb c "!"%char.

(** logic_member once a name has begun (token is 1): how many more characters belong to it, modules/pam_time/pam_time.c:269-301. *)
Fixpoint name_length (s : cstr) : nat :=
  match s with c :: s' => if name_char c then S (name_length s') else O | [] => O end.
(** logic_member, modules/pam_time/pam_time.c:261-302: the string at the new *at and the length returned. *)
Fixpoint logic_member (s : cstr) : cstr * nat :=
  match s with
  | [] => ([], O)
  | c :: s' => if oper_char c then (s, 1%nat) else if name_char c then (s, S (name_length s')) else logic_member s'
  end.

(** The loop of logic_field, modules/pam_time/pam_time.c:316-357; [val] is next == VAL, [or] is oper == OR. *)
Fixpoint logic_loop (agrees : cstr -> nat -> res bool) (fuel : nat) (x : cstr) (left not or val : bool) : res bool :=
  match fuel with
  | O => OutOfFuel
  | S fuel =>
    match logic_member x with
    | (_, O) => Ok left
    | ([], S _) => UB
    | ((c :: _) as x, l) =>
      let next := skipn l x in
      if val then
        if Ascii.eqb c "!"%char then logic_loop agrees fuel next left (negb not) or true
        else if name_char c then
          bind (agrees x l) (fun a =>
          let right := xorb not a in
          logic_loop agrees fuel next (if or then left || right else left && right) not or false)
        else Ok false
      else
        if Ascii.eqb c "&"%char then logic_loop agrees fuel next left false false true
        else if Ascii.eqb c "|"%char then logic_loop agrees fuel next left false true true
        else Ok false
    end
  end.
(** logic_field, modules/pam_time/pam_time.c:306-358. *)
Definition logic_field (agrees : cstr -> nat -> res bool) (x : cstr) : res bool :=
  logic_loop agrees (S (length x)) x false false true true.

(** strncmp(a, b, n) == 0 (C standard library). *)
Fixpoint strneq (n : nat) (a b : cstr) : bool :=
  match n with
  | O => true
  | S n => match a, b with
           | [], [] => true
           | x :: a, y :: b => Ascii.eqb x y && strneq n a b
           | _, _ => false
           end
  end.
(** The loop of is_same, modules/pam_time/pam_time.c:368-383; [a] and [b] are the strings from index i on, [whole] all of a.
    The pointer a + strlen(a) - len must not lie before the string; reading past the end of a string is undefined. *)
Fixpoint same_loop (whole a b : cstr) (len : nat) {struct len} : res bool :=
  match len with
  | O => Ok (match a with [] => true | _ => false end)
  | S len =>
    if Ascii.eqb (hd NUL b) (hd NUL a) then
      match a, b with _ :: a, _ :: b => same_loop whole a b len | _, _ => UB end
    else if Ascii.eqb (hd NUL b) "*"%char then
      if (len =? 0)%nat then Ok true
      else if (length whole <? len)%nat then UB
      else Ok (strneq len (tl b) (skipn (length whole - len) whole))
    else Ok false
  end.
(** is_same, modules/pam_time/pam_time.c:360-384. *)
Definition is_same (a b : cstr) (len : nat) : res bool := same_loop a a b len.

(** ** Times *)
(** TIME, modules/pam_time/pam_time.c:386-389, as time_now (lines 408-422) gives it for a weekday (0 is Sunday), an hour and a
    minute. *)
Record when := mkWhen { w_day : N; w_minute : Z }.
(** time_now, modules/pam_time/pam_time.c:408-422. *)
Definition time_now (wday : nat) (hour minute : Z) : when := mkWhen (N.shiftl 1 (N.of_nat wday)) (hour * 100 + minute).

(** days, modules/pam_time/pam_time.c:391-406. *)
Definition days : list (string * N) :=
  [("su"%string, 1%N); ("mo"%string, 2%N); ("tu"%string, 4%N); ("we"%string, 8%N); ("th"%string, 16%N); ("fr"%string, 32%N); ("sa"%string, 64%N);
   ("wk"%string, 62%N); ("wd"%string, 65%N); ("al"%string, 127%N)].
(** modules/pam_time/pam_time.c:456-462. *)
Definition day_bits (a b : ascii) : option N :=
  match find (fun e => streq (lit (fst e)) [tolower a; tolower b]) days with Some e => Some (snd e) | None => None end.

(** The loop over days, modules/pam_time/pam_time.c:452-469: marked_day, len and what follows; None: a bad day. *)
Fixpoint day_loop (fuel : nat) (marked : N) (s : cstr) (len : nat) : option (N * cstr * nat) :=
  match fuel, len, s with
  | S fuel, S len', a :: r =>
    if isalpha a then
      match day_bits a (hd NUL r) with
      | Some d => day_loop fuel (N.lxor marked d) (tl r) len'
      | None => None
      end
    else Some (marked, s, len)
  | _, _, _ => Some (marked, s, len)
  end.
(** Up to [n] digits, modules/pam_time/pam_time.c:476-480 and 484-488: the number, how many digits, what follows, len. *)
Fixpoint digit_loop (n : nat) (v : Z) (k : nat) (s : cstr) (len : nat) : Z * nat * cstr * nat :=
  match n, len, s with
  | S n, S len', c :: r => if isdigit c then digit_loop n (v * 10 + digit_val c) (S k) r len' else (v, k, s, len)
  | _, _, _ => (v, k, s, len)
  end.

(** check_time, modules/pam_time/pam_time.c:424-526. *)
Definition check_time (at_ : when) (times : cstr) (len : nat) : bool :=
  let '(not, s) := match times with c :: r => if Ascii.eqb c "!"%char then (true, r) else (false, times) | [] => (false, times) end in
  match day_loop (S (length s)) 0 s len with
  | None => false
  | Some (marked, s, len) =>
    if (marked =? 0)%N then false
    else
      let '(start, _, s, len) := digit_loop 4 0 0 s len in
      match s with
      | c :: s' =>
        if Ascii.eqb c "-"%char then
          let '(end_, k, _, _) := digit_loop 4 0 0 s' len in
          if negb (k =? 4)%nat then true
          else
            let day m := negb (N.land (w_day at_) m =? 0)%N in
            let pass :=
              if start <? end_ then day marked && (start <=? w_minute at_) && (w_minute at_ <? end_)
              else if day marked && (start <=? w_minute at_) then true
              else let m := N.shiftl marked 1 in
                   let m := if negb (N.land m 128 =? 0)%N then N.lor m 1 else m in
                   day m && (w_minute at_ <=? end_) in
            xorb not pass
        else true
      | [] => true
      end
  end.

(** ** pam_time *)
(** What check_account is called with: service, terminal, user; netgroups (innetgr(3) with HAVE_INNETGR). *)
Record who := mkWho { w_service : cstr; w_tty : cstr; w_user : cstr; w_netgroup : cstr -> bool }.

(** The users field, modules/pam_time/pam_time.c:579-587. *)
Definition user_field (w : who) (b : cstr) : res bool :=
  match b with
  | c :: g => if Ascii.eqb c "@"%char then Ok (w_netgroup w g) else logic_field (is_same (w_user w)) b
  | [] => logic_field (is_same (w_user w)) b
  end.

(** check_account, modules/pam_time/pam_time.c:528-614: the loop; [ret] is retval. logic_field on a NULL buffer is undefined. *)
Fixpoint time_rules (w : who) (now : when) (opens : option file) (fuel : nat) (rd : reader) (st : state) (ret : Z) : res Z :=
  match fuel with
  | O => OutOfFuel
  | S fuel =>
    let again rd st ret := match st with SEof => Ok ret | _ => time_rules w now opens fuel rd st ret end in
    let field rd st (k : reader -> state -> cstr -> res Z) :=
      let '(rd, st, buf) := read_field opens rd st in
      match st with
      | SField => match buf with None => UB | Some b => k rd st b end
      | _ => again rd st ret
      end in
    let '(rd, st, buf) := read_field opens rd st in
    match buf with
    | None | Some [] => again rd st ret
    | Some b =>
      match st with
      | SField =>
        bind (logic_field (is_same (w_service w)) b) (fun g1 =>
        field rd st (fun rd st b =>
        bind (logic_field (is_same (w_tty w)) b) (fun g2 =>
        field rd st (fun rd st b =>
        bind (user_field w b) (fun g3 =>
        let '(rd, st, buf) := read_field opens rd st in
        match st with
        | SField => again rd st ret
        | _ =>
          match buf with
          | None => UB
          | Some b =>
            bind (logic_field (fun t l => Ok (check_time now t l)) b) (fun intime =>
            again rd st (if g1 && g2 && g3 && negb intime then PAM_PERM_DENIED else ret))
          end
        end)))))
      | _ => again rd st ret
      end
    end
  end.
(** check_account as a whole; each turn but the last two takes a byte of the file. *)
Definition time_account (w : who) (now : when) (opens : option file) : res Z :=
  time_rules w now opens (match opens with Some f => S (S (length (data f))) | None => 1%nat end) RStart SNl PAM_SUCCESS.

(** The name of the terminal, modules/pam_time/pam_time.c:667-673. *)
Fixpoint after_slash (s : cstr) : option cstr :=
  match s with c :: s => if Ascii.eqb c c_slash then Some s else after_slash s | [] => None end.
(** The terminal name without the leading directory, modules/pam_time/pam_time.c:667-673. *)
Definition tty_name (tty : cstr) : cstr :=
  match tty with
  | c :: t => if Ascii.eqb c c_slash then (match after_slash t with Some t' => t' | None => t end) else tty
  | [] => tty
  end.
(** pam_sm_acct_mgmt, modules/pam_time/pam_time.c:618-694, with the configuration file chosen by _pam_parse (lines 56-100) as
    [opens]. [service] and [tty] are the items, [user] what pam_get_user gives, [stdin] is ttyname(0), [set] whether
    pam_set_item works. *)
Definition time_acct_mgmt (service : option cstr) (user : Z * cstr) (tty stdin : option cstr) (set : bool) (netgroup : cstr -> bool)
    (now : when) (opens : option file) : res Z :=
  match service with
  | None => Ok PAM_ABORT
  | Some service =>
    let '(rv, user) := user in
    if negb (rv =? PAM_SUCCESS) || match user with [] => true | _ => false end then Ok PAM_USER_UNKNOWN
    else
      let go tty := time_account (mkWho service (tty_name tty) user netgroup) now opens in
      match tty with
      | Some tty => go tty
      | None => if set then go (match stdin with Some t => t | None => [] end) else Ok PAM_ABORT
      end
  end.

(** ** pam_group *)
(** find_member, modules/pam_group/pam_group.c:473-513: the names of groups have fewer kinds of characters. *)
Definition group_char (c : ascii) : bool :=
  isalpha c || isdigit c || Ascii.eqb c "_"%char || Ascii.eqb c "*"%char || Ascii.eqb c "-"%char.
(** The length of a group name, modules/pam_group/pam_group.c:496-509. *)
Fixpoint group_length (s : cstr) : nat :=
  match s with c :: s' => if group_char c then S (group_length s') else O | [] => O end.
(** find_member, modules/pam_group/pam_group.c:473-513. *)
Fixpoint find_member (s : cstr) : cstr * nat :=
  match s with
  | [] => ([], O)
  | c :: s' => if oper_char c then (s, 1%nat) else if group_char c then (s, S (group_length s')) else find_member s'
  end.
(** blk_size, modules/pam_group/pam_group.c:515-516, for a number of at least 0. *)
Definition blk_size (len : nat) : nat := if (len =? 0)%nat then O else (((len - 1 + 10) / 10) * 10)%nat.
(** mkgrplist, modules/pam_group/pam_group.c:518-569: [blks] entries are allocated and [list] is stored in them; [getgr] is
    pam_modutil_getgrnam, [mem n] whether realloc to [n] entries works. None: the list has been freed. The byte after a
    name is overwritten and skipped. Writing outside the allocated entries is undefined. *)
Fixpoint group_loop (getgr : cstr -> option Z) (mem : nat -> bool) (fuel : nat) (buf : cstr) (list : list Z) (blks : nat) : res (option (List.list Z)) :=
  match fuel with
  | O => OutOfFuel
  | S fuel =>
    match find_member buf with
    | (_, O) => Ok (Some list)
    | (buf, l) =>
      let more := (blks <=? length list)%nat in
      let blks := if more then (blks + 10)%nat else blks in
      if more && negb (mem blks) then Ok None
      else
        let rest := skipn (S l) buf in
        match getgr (firstn l buf) with
        | None => group_loop getgr mem fuel rest list blks
        | Some gid => if (length list <? blks)%nat then group_loop getgr mem fuel rest (list ++ [gid])%list blks else UB
        end
    end
  end.
(** mkgrplist as a whole, modules/pam_group/pam_group.c:518-569. *)
Definition mkgrplist (getgr : cstr -> option Z) (mem : nat -> bool) (buf : cstr) (list : list Z) : res (option (List.list Z)) :=
  group_loop getgr mem (S (length buf)) buf list (blk_size (length list)).

(** The users field, modules/pam_group/pam_group.c:668-679; [ingroup] is pam_modutil_user_in_group_nam_nam for the user. *)
Definition group_user_field (w : who) (ingroup : cstr -> bool) (b : cstr) : res bool :=
  match b with
  | c :: g => if Ascii.eqb c "@"%char then Ok (w_netgroup w g)
              else if Ascii.eqb c "%"%char then Ok (ingroup g)
              else logic_field (is_same (w_user w)) b
  | [] => logic_field (is_same (w_user w)) b
  end.
(** The loop of check_account, modules/pam_group/pam_group.c:626-724: retval and the list of groups. Allocation for rule
    number [n] is [mem n]. *)
Fixpoint group_rules (w : who) (ingroup : cstr -> bool) (getgr : cstr -> option Z) (mem : nat -> nat -> bool) (now : when) (opens : option file)
    (fuel : nat) (rd : reader) (st : state) (ret : Z) (list : list Z) (count : nat) : res (Z * List.list Z) :=
  match fuel with
  | O => OutOfFuel
  | S fuel =>
    let again rd st ret list count := match st with SEof => Ok (ret, list) | _ => group_rules w ingroup getgr mem now opens fuel rd st ret list count end in
    let field rd st count (k : reader -> state -> cstr -> res (Z * List.list Z)) :=
      let '(rd, st, buf) := read_field opens rd st in
      match st with
      | SField => match buf with None => UB | Some b => k rd st b end
      | _ => again rd st ret list count
      end in
    let '(rd, st, buf) := read_field opens rd st in
    match buf with
    | None | Some [] => again rd st ret list count
    | Some b =>
      let count := S count in
      match st with
      | SField =>
        bind (logic_field (is_same (w_service w)) b) (fun g1 =>
        field rd st count (fun rd st b =>
        bind (logic_field (is_same (w_tty w)) b) (fun g2 =>
        field rd st count (fun rd st b =>
        bind (group_user_field w ingroup b) (fun g3 =>
        field rd st count (fun rd st b =>
        bind (logic_field (fun t l => Ok (check_time now t l)) b) (fun g4 =>
        let '(rd, st, buf) := read_field opens rd st in
        match st with
        | SField => again rd st ret list count
        | _ =>
          if g1 && g2 && g3 && g4 then
            match buf with
            | None => UB
            | Some b =>
              bind (mkgrplist getgr (mem count) b list) (fun r =>
              match r with
              | Some l => again rd st ret l count
              | None => again rd st PAM_BUF_ERR [] count
              end)
            end
          else again rd st ret list count
        end)))))))
      | _ => again rd st ret list count
      end
    end
  end.
(** check_account, modules/pam_group/pam_group.c:572-753: the return value and the argument of setgroups (None: not called).
    [had] is what getgroups gives (none when it fails); calloc for it is taken to work (its result is not looked at);
    [setok] whether setgroups works. *)
Definition group_account (w : who) (ingroup : cstr -> bool) (getgr : cstr -> option Z) (mem : nat -> nat -> bool) (now : when) (opens : option file)
    (had : list Z) (setok : bool) : res (Z * option (list Z)) :=
  bind (group_rules w ingroup getgr mem now opens (match opens with Some f => S (S (length (data f))) | None => 1%nat end) RStart SNl PAM_SUCCESS had 0)
    (fun '(ret, l) => match l with
                      | [] => Ok (ret, None)
                      | _ => Ok (if setok then ret else PAM_CRED_ERR, Some l)
                      end).

(** pam_sm_setcred, modules/pam_group/pam_group.c:764-831; PAM_ESTABLISH_CRED is 2, PAM_REINITIALIZE_CRED 8
    (libpam/include/security/_pam_types.h). Parameters as for [time_acct_mgmt]. *)
Definition group_setcred (flags : N) (service : option cstr) (user : Z * cstr) (tty stdin : option cstr) (set : bool) (netgroup : cstr -> bool)
    (ingroup : cstr -> bool) (getgr : cstr -> option Z) (mem : nat -> nat -> bool) (now : when) (opens : option file) (had : list Z) (setok : bool)
    : res (Z * option (list Z)) :=
  if (N.land flags 10 =? 0)%N then Ok (PAM_SUCCESS, None)
  else
    match service with
    | None => Ok (PAM_ABORT, None)
    | Some service =>
      let '(rv, user) := user in
      if negb (rv =? PAM_SUCCESS) || match user with [] => true | _ => false end then Ok (PAM_USER_UNKNOWN, None)
      else
        let go tty := group_account (mkWho service (tty_name tty) user netgroup) ingroup getgr mem now opens had setok in
        match tty with
        | Some tty => go tty
        | None => if set then go (match stdin with Some t => t | None => [] end) else Ok (PAM_ABORT, None)
        end
    end.
