(** libpam_misc/misc_conv.c: the text conversation function. *)
From Coq Require Import String Ascii List Arith ZArith Lia Bool.
From Verif Require Import Base Inline_Model Pamc_Model.
Import ListNotations.
Local Open Scope Z_scope.

(** Conversion of a time_t to the int get_delay returns. *)
Definition to_int (z : Z) : Z := (z + 2 ^ 31) mod 2 ^ 32 - 2 ^ 31.

(** pam_misc_conv_warn_time and pam_misc_conv_died, libpam_misc/misc_conv.c:33-39, which calls change.
    pam_misc_conv_die_time is a parameter below. *)
Record clock := mkClock { warn : Z; died : bool }.

Section Conv.
(** INPUTSIZE, misc_conv.c:24, a build option (4096 unless set otherwise). *)
Variable bufsize : nat.
(** isatty(STDIN_FILENO). *)
Variable tty : bool.
(** pam_misc_conv_die_time, misc_conv.c:34. *)
Variable die : Z.

(** get_delay, misc_conv.c:95-128, at the time [now]. *)
Definition get_delay (k : clock) (now : Z) : Z * clock :=
  if negb (die =? 0) && (die <=? now) then (-1, mkClock (warn k) true)
  else if negb (warn k =? 0) && (warn k <=? now)
  then ((if negb (die =? 0) then to_int (die - now) else 0), mkClock 0 (died k))
  else if negb (warn k =? 0) then (to_int (warn k - now), k)
  else if negb (die =? 0) then (to_int (die - now), k)
  else (0, k).

(** One turn of the loop of read_string: does set_alarm (misc_conv.c:77-92) work, what the terminal's read
    gives (nothing for an error), whether SIGALRM came before reset_alarm, and the time afterwards. *)
Record turn := mkTurn { alarm_ok : bool; typed : option (list ascii); rang : bool; later : Z }.

(** Reading one line from something other than a terminal, misc_conv.c:186-197: at most [n] bytes, one at a
    time.  An entry of the input is a byte or a read error; at the end read returns 0.  The result: the
    bytes put into line, whether there was an error, and the rest of the input. *)
Fixpoint read_line (n : nat) (inp : list (option ascii)) : list ascii * bool * list (option ascii) :=
  match n with
  | O => ([], false, inp)
  | S n =>
    match inp with
    | [] => ([], false, [])
    | None :: r => ([], true, r)
    | Some c :: r => if Ascii.eqb c c_nl then ([c], false, r)
                     else let '(l, e, r) := read_line n r in (c :: l, e, r)
    end
  end.

(** The bytes [d] over the start of the array. *)
Definition over (d line : list ascii) : list ascii := d ++ skipn (length d) line.

(** What one read leaves: nc, the array line and the input, misc_conv.c:184-197. *)
Definition one_read (t : turn) (line : list ascii) (inp : list (option ascii)) : Z * list ascii * list (option ascii) :=
  if tty then
    match typed t with
    | None => (-1, line, inp)
    | Some d => let d := firstn (bufsize - 1) d in (Z.of_nat (length d), over d line, inp)
    end
  else
    let '(d, e, inp) := read_line (bufsize - 1) inp in
    if e then (-1, over (repeat NUL (length d)) line, inp)
    else (Z.of_nat (length d), over d line, inp).

(** The string made of the first nc bytes of line, misc_conv.c:211-219: nc afterwards and the string. *)
Definition made (nc : Z) (line : list ascii) : Z * cstr :=
  let d := firstn (Z.to_nat nc) line in
  if Ascii.eqb (last d NUL) c_nl then (nc - 1, cut_nul (removelast d)) else (nc, cut_nul d).

(** What read_string returns: nc, *retstr, what is left in the array line of what was typed (the zero bytes
    of an overwritten one are left out), the clock and the input. *)
Definition rs_result := (Z * option cstr * list ascii * clock * list (option ascii))%type.

(** The loop of read_string and what follows, misc_conv.c:172-262.  [mem] is strdup's.  Left out: what is
    printed and the terminal modes.  An alarm can only ring when one was set. *)
Fixpoint rs_loop (mem : bool) (turns : list turn) (delay nc : Z) (line : list ascii) (k : clock)
    (inp : list (option ascii)) : res rs_result :=
  if delay <? 0 then Ok (nc, None, [], k, inp)
  else
  match turns with
  | [] => OutOfFuel
  | t :: turns =>
    if (0 <? delay) && negb (alarm_ok t) then Ok (nc, None, [], k, inp)
    else
      let '(nc, line, inp) := one_read t line inp in
      if (0 <? delay) && rang t then
        let (delay, k) := get_delay k (later t) in rs_loop mem turns delay nc line k inp
      else if 0 <? nc then
        let (nc, s) := made nc line in
        if mem then Ok (nc, Some s, [], k, inp) else Ok (-1, None, [], k, inp)
      else Ok (nc, None, line, k, inp)
  end.

(** What the world does during one message: tcgetattr works, the time, the turns, strdup's memory, and
    whether printing works. *)
Record world := mkWorld { attr_ok : bool; at_time : Z; turns : list turn; dup_ok : bool; print_ok : bool }.

(** read_string, misc_conv.c:131-263. *)
Definition read_string (w : world) (k : clock) (inp : list (option ascii)) : res rs_result :=
  if tty && negb (attr_ok w) then Ok (-1, None, [], k, inp)
  else let (delay, k) := get_delay k (at_time w) in rs_loop (dup_ok w) (turns w) delay (-1) [] k inp.

(** The messages: style and, for binary ones, the prompt (nothing for NULL). *)
Inductive message := EchoOff (m : cstr) | EchoOn (m : cstr) | ErrorMsg (m : cstr) | TextInfo (m : cstr)
                   | Binary (p : option bp) | Other (style : Z).
(** A response: NULL, a string or a prompt. *)
Inductive answer := Null | Text (s : cstr) | Prompt (p : bp).

(** pam_binary_handler_fn: whether set, and what it does with a prompt: whether it returns PAM_SUCCESS, and
    what is then at prompt_p. *)
Variable handler : option (bp -> bool * option bp).
(** Whether pam_binary_handler_free is still pam_misc_conv_delete_binary, and NDEBUG. *)
Variable default_free ndebug : bool.

(** What becomes of the call: PAM_SUCCESS with responses, or PAM_CONV_ERR with blocks no longer reachable
    but never freed. *)
Inductive verdict := Success (r : list answer) | ConvErr (lost : list bp).

(** The answer to one message, misc_conv.c:303-363: the right side for a
    jump to failed_conversation, with what is lost there.  Memory for binary prompts is available. *)
Definition one_message (m : message) (w : world) (k : clock) (inp : list (option ascii))
  : res (ended ((answer + list bp) * clock * list (option ascii))) :=
  match m with
  | EchoOff _ | EchoOn _ =>
    match read_string w k inp with
    | Ok (nc, s, _, k, inp) =>
      if nc <? 0 then Ok (Goes (inr [], k, inp))
      else Ok (Goes (inl (match s with Some s => Text s | None => Null end), k, inp))
    | UB => UB
    | OutOfFuel => OutOfFuel
    end
  | ErrorMsg _ | TextInfo _ => Ok (Goes ((if print_ok w then inl Null else inr []), k, inp))
  | Binary None => Ok (Goes (inr [], k, inp))
  | Binary (Some p) =>
    match handler with
    | None => Ok (Goes (inr [], k, inp))
    | Some f =>
      match bp_control p, bp_length p with
      | Ok control, Ok len =>
        thenE (renew ndebug true (Some None) control len) (fun q =>
        match q with
        | Some (Some q) =>
          thenE (fill ndebug q 0 len (skipn 5 p)) (fun q =>
          match f q with
          | (true, Some q) => Ok (Goes (inl (Prompt q), k, inp))
          | (false, Some q) => Ok (Goes (inr [q], k, inp))
          | (_, None) => Ok (Goes (inr [], k, inp))
          end)
        | _ => UB
        end)
      | _, _ => UB
      end
    end
  | Other _ => Ok (Goes (inr [], k, inp))
  end.

(** failed_conversation, misc_conv.c:370-403: the answers so far are freed.  A prompt is handed to
    pam_binary_handler_free as if its address were that of the pointer to it; the default function then
    follows its bytes as a pointer.  An application's own function is taken to free what it is given. *)
Definition failed (got : list answer) (lost : list bp) : res (ended verdict) :=
  if default_free && existsb (fun a => match a with Prompt _ => true | _ => false end) got then UB
  else Ok (Goes (ConvErr lost)).

(** The loop of misc_conv, misc_conv.c:299-368; [got] are the responses so far, in order. *)
Fixpoint conv_loop (msgs : list message) (ws : list world) (got : list answer) (k : clock)
    (inp : list (option ascii)) : res (ended (verdict * clock * list (option ascii))) :=
  match msgs, ws with
  | [], _ => Ok (Goes (Success got, k, inp))
  | _ :: _, [] => OutOfFuel
  | m :: msgs, w :: ws =>
    thenE (one_message m w k inp) (fun '(a, k, inp) =>
    match a with
    | inl a => conv_loop msgs ws (got ++ [a]) k inp
    | inr lost => thenE (failed got lost) (fun v => Ok (Goes (v, k, inp)))
    end)
  end.

(** misc_conv, misc_conv.c:280-404; [mem] is calloc's.  num_msg is the number of messages. *)
Definition misc_conv (mem : bool) (msgs : list message) (ws : list world) (k : clock)
    (inp : list (option ascii)) : res (ended (verdict * clock * list (option ascii))) :=
  if (length msgs =? 0)%nat || negb mem then Ok (Goes (ConvErr [], k, inp))
  else conv_loop msgs ws [] k inp.
End Conv.
