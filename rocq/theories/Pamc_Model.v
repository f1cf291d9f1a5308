(** libpamc: binary prompts, agents, and the conversation with an agent. *)
From Coq Require Import String Ascii List Arith ZArith Lia Bool.
From Verif Require Import Base Inline_Model.
Import ListNotations.
Local Open Scope Z_scope.

(** What calling a function or macro that may call exit(1) through PAM_BP_ASSERT comes to
    (libpamc/include/security/pam_client.h:75-82): it goes on with a value, or the process has ended. *)
Inductive ended (A : Type) := Goes (a : A) | Exits.
Arguments Goes {A}.
Arguments Exits {A}.
(** Sequencing of such calls. *)
Definition thenE {A B} (r : res (ended A)) (f : A -> res (ended B)) : res (ended B) :=
  match r with
  | Ok (Goes a) => f a
  | Ok Exits => Ok Exits
  | UB => UB
  | OutOfFuel => OutOfFuel
  end.

(** ** Binary prompts *)
(** A prompt in memory is the allocated block, its bytes in order. *)
Definition bp := list ascii.
(** The value of a byte read as uint8_t, and the byte an assignment to a uint8_t stores. *)
Definition oct (c : ascii) : Z := Z.of_nat (ord c).
(** The byte an assignment to a uint8_t stores. *)
Definition byte (z : Z) : ascii := chr (Z.to_nat (z mod 256)).
(** Assignment to uint32_t, and arithmetic in size_t (64 bits). *)
Definition u32 (z : Z) : Z := z mod 2 ^ 32.
(** Arithmetic in size_t (64 bits). *)
Definition u64 (z : Z) : Z := z mod 2 ^ 64.

(** PAM_BP_MIN_SIZE, pam_client.h:95. *)
Definition MIN_SIZE : Z := 5.
(** Control types, pam_client.h:165-173. *)
Definition BPC_OK : Z := 1.
(** PAM_BPC_SELECT, pam_client.h:165-173. *)
Definition BPC_SELECT : Z := 2.
(** PAM_BPC_DONE, pam_client.h:165-173. *)
Definition BPC_DONE : Z := 3.
(** PAM_BPC_FAIL, pam_client.h:165-173. *)
Definition BPC_FAIL : Z := 4.

(** PAM_BP_SIZE, pam_client.h:99-102.  The octets are promoted to int; shifting one of 128 or more by 24 is
    undefined, and so is reading outside the block. *)
Definition bp_size (p : bp) : res Z :=
  match p with
  | a :: b :: c :: d :: _ =>
    if 128 <=? oct a then UB else Ok (oct a * 2 ^ 24 + oct b * 2 ^ 16 + oct c * 2 ^ 8 + oct d)
  | _ => UB
  end.
(** PAM_BP_RCONTROL, pam_client.h:98. *)
Definition bp_control (p : bp) : res Z :=
  match nth_error p 4 with Some c => Ok (oct c) | None => UB end.
(** PAM_BP_LENGTH, pam_client.h:103: an int less a size_t. *)
Definition bp_length (p : bp) : res Z := bind (bp_size p) (fun s => Ok (u64 (s - MIN_SIZE))).
(** PAM_BPC_FOR_CLIENT, pam_client.h:187-189. *)
Definition for_client (control : Z) : bool := (control <=? BPC_FAIL) && (BPC_OK <=? control).

Section Prompts.
(** Whether the code is compiled with NDEBUG, which makes PAM_BP_ASSERT do nothing. *)
Variable ndebug : bool.

(** PAM_BP_ASSERT, pam_client.h:75-82. *)
Definition bp_assert {A} (a : A) : res (ended A) := if ndebug then Ok (Goes a) else Ok Exits.

(** The first part of PAM_BP_RENEW, pam_client.h:112-117: the old prompt is cleared and freed. *)
Definition bp_drop (old : option bp) : res unit :=
  match old with
  | None => Ok tt
  | Some p => bind (bp_size p) (fun s => if Z.of_nat (length p) <? s then UB else Ok tt)
  end.

(** The second part of PAM_BP_RENEW, pam_client.h:118-133: what *old_p becomes; [mem] tells whether calloc
    has memory.  [cntrl] is the value of the expression, stored as a uint8_t; [len] that of data_length. *)
Definition bp_make (mem : bool) (cntrl len : Z) : res (ended (option bp)) :=
  if cntrl =? 0 then Ok (Goes None)
  else
    let size := u32 (MIN_SIZE + len) in
    let block := repeat NUL (Z.to_nat (u32 (1 + size))) in
    if negb mem then bp_assert None
    else match block with
    | _ :: _ :: _ :: _ :: _ :: rest =>
      Ok (Goes (Some (byte (size / 2 ^ 24) :: byte (size / 2 ^ 16) :: byte (size / 2 ^ 8) :: byte size
                      :: byte cntrl :: rest)))
    | _ => UB
    end.

(** PAM_BP_RENEW, pam_client.h:109-137.  [old_p] is the pointer given: [None] for NULL. *)
Definition renew (mem : bool) (old_p : option (option bp)) (cntrl len : Z) : res (ended (option (option bp))) :=
  match old_p with
  | None => bp_assert None
  | Some old =>
    match bp_drop old with
    | Ok _ => thenE (bp_make mem cntrl len) (fun p => Ok (Goes (Some p)))
    | UB => UB
    | OutOfFuel => OutOfFuel
    end
  end.

(** memcpy(offset + WDATA(p), data, length): both ranges must lie in their blocks. *)
Definition put (p : bp) (offset length : Z) (data : list ascii) : res bp :=
  if (offset <? 0) || (length <? 0) || (Z.of_nat (List.length data) <? length)
     || (Z.of_nat (List.length p) <? MIN_SIZE + offset + length) then UB
  else Ok (firstn (Z.to_nat (MIN_SIZE + offset)) p ++ firstn (Z.to_nat length) data
           ++ skipn (Z.to_nat (MIN_SIZE + offset + length)) p).

(** PAM_BP_FILL, pam_client.h:139-148.  Simplification: the offset and length given are at least 0. *)
Definition fill (p : bp) (offset length : Z) (data : list ascii) : res (ended bp) :=
  match bp_length p with
  | Ok l => thenE (if l <? u64 (length + offset) then bp_assert tt else Ok (Goes tt))
                  (fun _ => match put p offset length data with
                            | Ok q => Ok (Goes q) | UB => UB | OutOfFuel => OutOfFuel end)
  | UB => UB
  | OutOfFuel => OutOfFuel
  end.

(** PAM_BP_EXTRACT, pam_client.h:150-160, with room for [length] bytes at [data]: the bytes copied. *)
Definition extract (p : bp) (offset length : Z) : res (ended (list ascii)) :=
  match bp_length p with
  | Ok l => thenE (if (offset <? 0) || (l <? u64 (length + offset)) || (length <? 0)
                   then bp_assert tt else Ok (Goes tt))
                  (fun _ => if (offset <? 0) || (length <? 0)
                               || (Z.of_nat (List.length p) <? MIN_SIZE + offset + length) then UB
                            else Ok (Goes (firstn (Z.to_nat length) (skipn (Z.to_nat (MIN_SIZE + offset)) p))))
  | UB => UB
  | OutOfFuel => OutOfFuel
  end.
End Prompts.

(** ** Agent names *)
(** The loop of __pamc_valid_agent_id, libpamc/pamc_load.c:318-331.  [i] is the index of the first byte of
    [id]; it is incremented in the body and again in the loop head. *)
Fixpoint valid_loop (fuel : nat) (i : nat) (post : bool) (id : list ascii) : bool :=
  match fuel with
  | O => true
  | S f =>
    match id with
    | [] => true
    | ch :: rest =>
      let i := S i in
      if isalpha ch || isdigit ch || Ascii.eqb ch "_"%char then valid_loop f (S i) post (tl rest)
      else if post && Ascii.eqb ch "."%char then valid_loop f (S i) post (tl rest)
      else if (1 <? i)%nat && negb post && Ascii.eqb ch "@"%char then valid_loop f (S i) true (tl rest)
      else false
    end
  end.
(** __pamc_valid_agent_id, pamc_load.c:314-339. *)
Definition valid_agent_id (id : list ascii) : bool :=
  valid_loop (length id) 0 false id && negb (length id =? 0)%nat.

(** ** The handle *)
(** struct pamc_agent_s, libpamc/libpamc.h:43-50: the pipes are what the agent has received and what it
    will send.  The process id is left out. *)
Record agent := mkAgent { a_id : cstr; writer : sink; reader : src }.
(** struct pamc_handle_s, libpamc.h:28-36.  [current] is the name of the agent pointed to: names in the
    chain are distinct.  [execs] is the history of programs started.  max_path and combined_status, which
    nothing uses, are left out, and highest_fd_to_close is a constant of the parent process. *)
Record handle := mkHandle { current : option cstr; chain : list agent; blocked : list cstr;
                            paths : list cstr; execs : list cstr }.

(** The number of paths, libpamc/pamc_client.c:52-57. *)
Fixpoint count_paths (p : cstr) : nat :=
  match p with
  | [] => 1
  | c :: r => if Ascii.eqb c ":"%char then S (count_paths r) else count_paths r
  end.
(** The loop at pamc_client.c:65-92: [cur] are the bytes from last to i, [n] the entries of the list still
    unused ([count - this]). *)
Fixpoint path_loop (p cur : cstr) (n : nat) : list cstr :=
  match p with
  | [] => match cur with [] => [] | _ => [cur] end
  | c :: r =>
    if Ascii.eqb c ":"%char
    then cur :: (match n with S (S m) => path_loop r [] (S m) | _ => [] end)
    else path_loop r (cur ++ [c]) n
  end.
(** The agent_paths of pamc_start, pamc_client.c:47-92; [env] is getenv("PAMC_AGENT_PATH").  The memory
    failures make pamc_start return NULL and are left out. *)
Definition start_paths (env : option cstr) : list cstr :=
  let p := match env with Some p => p | None => lit "/lib/pamc:/usr/lib/pamc" end in
  path_loop p [] (count_paths p).
(** pamc_start, pamc_client.c:33-103. *)
Definition pamc_start (env : option cstr) : handle := mkHandle None [] [] (start_paths env) [].

Section Agents.
(** stat succeeds; starting the program (pipe, pipe, fork) gives the pipes to it, or fails. *)
Variable exists_file : cstr -> bool.
(** Starting a program at the end of the new pipes, pamc_load.c:59-132. *)
Variable start : cstr -> option (sink * src).

(** The search at pamc_load.c:32-52. *)
Fixpoint find_agent (ps : list cstr) (id : cstr) : option cstr :=
  match ps with
  | [] => None
  | p :: ps => let full := p ++ lit "/" ++ id in
               if exists_file full then Some full else find_agent ps id
  end.

(** __pamc_exec_agent, pamc_load.c:12-148.  Left out: memory failure; the file descriptors the new process
    closes (see [child_closes]); execle failing, which only the agent's silence shows. *)
Definition exec_agent (ps : list cstr) (id : cstr) : option (cstr * (sink * src)) :=
  if existsb (fun c => Ascii.eqb c c_slash) id then None
  else match find_agent ps id with
       | None => None
       | Some full => match start full with Some io => Some (full, io) | None => None end
       end.

(** __pamc_agent_is_enabled, pamc_load.c:154-167. *)
Definition is_enabled (h : handle) (id : cstr) : bool := existsb (fun a => streq (a_id a) id) (chain h).
(** __pamc_agent_is_disabled, pamc_load.c:173-186. *)
Definition is_disabled (h : handle) (id : cstr) : bool := existsb (streq id) (blocked h).

(** pamc_disable, pamc_load.c:192-233; [mem]: calloc and strdup have memory. *)
Definition pamc_disable (mem : bool) (h : handle) (id : cstr) : bool * handle :=
  if is_enabled h id then (false, h)
  else if is_disabled h id then (true, h)
  else if mem then (true, mkHandle (current h) (chain h) (id :: blocked h) (paths h) (execs h))
  else (false, h).

(** pamc_load, pamc_load.c:239-308; [mem]: calloc has memory. *)
Definition pamc_load (mem : bool) (h : handle) (id : cstr) : bool * handle :=
  if is_disabled h id then (false, h)
  else if is_enabled h id then (true, h)
  else if negb mem then (false, h)
  else match exec_agent (paths h) id with
       | None => (false, h)
       | Some (full, (w, r)) =>
         (true, mkHandle (current h) (mkAgent id w r :: chain h) (blocked h) (paths h) (full :: execs h))
       end.

(** __pamc_select_agent, libpamc/pamc_converse.c:16-30. *)
Definition select_agent (h : handle) (id : cstr) : bool * handle :=
  if is_enabled h id
  then (true, mkHandle (Some id) (chain h) (blocked h) (paths h) (execs h))
  else (false, mkHandle None (chain h) (blocked h) (paths h) (execs h)).

(** The agent pch->current points to. *)
Definition current_agent (h : handle) : option agent :=
  match current h with
  | None => None
  | Some id => find (fun a => streq (a_id a) id) (chain h)
  end.
(** What the calls on its pipes leave. *)
Definition with_current (h : handle) (w : sink) (r : src) : handle :=
  match current h with
  | None => h
  | Some id =>
    mkHandle (current h)
             (map (fun a => if streq (a_id a) id then mkAgent (a_id a) w r else a) (chain h))
             (blocked h) (paths h) (execs h)
  end.

(** The loop at pamc_converse.c:103-118: [d] are the bytes still to be written.  True when all went. *)
Fixpoint send (fuel : nat) (d : list ascii) (w : sink) : res (bool * sink) :=
  match fuel with
  | O => OutOfFuel
  | S f =>
    match sys_write d w with
    | (RIntr, w) => match d with [] => Ok (true, w) | _ => send f d w end
    | (RFail, w) => Ok (false, w)
    | (RData t, w) => match skipn (length t) d with
                      | [] => Ok (true, w)
                      | d => send f d w
                      end
    end
  end.

(** How a reading loop ends. *)
Inductive got := GotAll (d : list ascii) | GotError | GotEnd.
(** The loops at pamc_converse.c:126-148 and 168-188: [have] was read so far and [n] bytes are missing. *)
Fixpoint receive (fuel : nat) (n : nat) (have : list ascii) (r : src) : res (got * src) :=
  match n with
  | O => Ok (GotAll have, r)
  | S _ =>
    match fuel with
    | O => OutOfFuel
    | S f =>
      match sys_read n r with
      | (RIntr, r) => receive f n have r
      | (RFail, r) => Ok (GotError, r)
      | (RData [], r) => Ok (GotEnd, r)
      | (RData d, r) => receive f (n - length d) (have ++ d) r
      end
    end
  end.

(** The bytes before the first '/' at pamc_converse.c:78-84, if there is one. *)
Fixpoint before_slash (d : list ascii) : option (list ascii) :=
  match d with
  | [] => None
  | c :: r => if Ascii.eqb c c_slash then Some []
              else match before_slash r with Some id => Some (c :: id) | None => None end
  end.
(** A C string in memory ends at its first NUL. *)
Fixpoint cut_nul (d : list ascii) : cstr :=
  match d with
  | [] => []
  | c :: r => if Ascii.eqb c NUL then [] else c :: cut_nul r
  end.

(** Selecting the agent, pamc_converse.c:70-99.  [d] is the data of the prompt.  False: unknown prompt. *)
Definition choose (mem : bool) (h : handle) (control : Z) (d : list ascii) : bool * handle :=
  if control =? BPC_SELECT then
    match before_slash d with
    | None => (false, h)
    | Some id =>
      if negb (valid_agent_id id) then (false, h)
      else let (ok, h) := pamc_load mem h (cut_nul id) in
           if ok then select_agent h (cut_nul id) else (false, h)
    end
  else (true, h).

(** Whether assertions are compiled out, pam_client.h:75-82. *)
Variable ndebug : bool.

(** pamc_unknown_prompt and pamc_converse_failure, pamc_converse.c:200-211.  The result: the value
    returned, what *prompt_p becomes and the handle. *)
Definition unknown_prompt (mem : bool) (p : option bp) (h : handle)
  : res (ended (bool * option (option bp) * handle)) :=
  thenE (renew ndebug mem (Some p) BPC_FAIL 0) (fun q => Ok (Goes (true, q, h))).
(** pamc_converse_failure, pamc_converse.c:200-204. *)
Definition converse_failure (mem : bool) (prompt_p : option (option bp)) (h : handle)
  : res (ended (bool * option (option bp) * handle)) :=
  thenE (renew ndebug mem prompt_p 0 0) (fun q => Ok (Goes (false, q, h))).

(** The reply, pamc_converse.c:122-198; [w] is what the agent's input is by now. *)
Definition reply (mem mem2 : bool) (fuel : nat) (p : bp) (w : sink) (r : src) (h : handle)
  : res (ended (bool * option (option bp) * handle)) :=
  match receive fuel 5 [] r with
  | UB => UB
  | OutOfFuel => OutOfFuel
  | Ok (GotError, r) => unknown_prompt mem2 (Some p) (with_current h w r)
  | Ok (GotEnd, r) => converse_failure mem2 (Some (Some p)) (with_current h w r)
  | Ok (GotAll raw, r) =>
    match bp_size raw, bp_control raw with
    | Ok size, Ok control =>
      thenE (renew ndebug mem (Some (Some p)) control (u64 (size - MIN_SIZE))) (fun q =>
      match q with
      | Some (Some q) =>
        if size <=? 5 then Ok (Goes (true, Some (Some q), with_current h w r))
        else
        match receive fuel (Z.to_nat (size - 5)) [] r with
        | UB => UB
        | OutOfFuel => OutOfFuel
        | Ok (GotError, r) => unknown_prompt mem2 (Some q) (with_current h w r)
        | Ok (GotEnd, r) => converse_failure mem2 (Some (Some q)) (with_current h w r)
        | Ok (GotAll d, r) =>
          match put q 0 (size - 5) d with
          | Ok q => Ok (Goes (true, Some (Some q), with_current h w r))
          | UB => UB
          | OutOfFuel => OutOfFuel
          end
        end
      | _ => unknown_prompt mem2 None (with_current h w r)
      end)
    | _, _ => UB
    end
  end.

(** pamc_converse, pamc_converse.c:36-212.  [mem0] is the memory available to pamc_load, [mem] to the reply
    and [mem2] to the prompt that says failure.  [prompt_p] is the pointer given. *)
Definition pamc_converse (mem0 mem mem2 : bool) (fuel : nat) (pch : option handle)
    (prompt_p : option (option bp)) : res (ended (bool * option (option bp) * option handle)) :=
  let lift r := thenE r (fun '(b, q, h) => Ok (Goes (b, q, Some h))) in
  match pch, prompt_p with
  | Some h, Some (Some p) =>
    match bp_size p with
    | Ok size =>
      if size <? MIN_SIZE then lift (unknown_prompt mem2 (Some p) h)
      else
      match bp_control p with
      | Ok control =>
        if Z.of_nat (length p) <? size then UB
        else if negb (for_client control) then lift (unknown_prompt mem2 (Some p) h)
        else
        let msg := firstn (Z.to_nat size) p in
        let (ok, h) := choose mem0 h control (skipn 5 msg) in
        if negb ok then lift (unknown_prompt mem2 (Some p) h)
        else
        match current_agent h with
        | None => lift (unknown_prompt mem2 (Some p) h)
        | Some a =>
          match send fuel msg (writer a) with
          | UB => UB
          | OutOfFuel => OutOfFuel
          | Ok (false, w) => lift (unknown_prompt mem2 (Some p) (with_current h w (reader a)))
          | Ok (true, w) => lift (reply mem mem2 fuel p w (reader a) h)
          end
        end
      | _ => UB
      end
    | _ => UB
    end
  | _, _ =>
    thenE (renew ndebug mem2 prompt_p 0 0) (fun q => Ok (Goes (false, q, pch)))
  end.
End Agents.

(** ** Listing the agents *)
(** strcmp: bytes compared as unsigned char. *)
Fixpoint strcmp (a b : cstr) : comparison :=
  match a, b with
  | [], [] => Eq
  | [], _ :: _ => Lt
  | _ :: _, [] => Gt
  | x :: a, y :: b => match Nat.compare (ord x) (ord y) with Eq => strcmp a b | c => c end
  end.

(** pamc_id_node_t, libpamc.h:54-58. *)
Inductive tree := Leaf | Node (l : tree) (count : Z) (id : cstr) (r : tree).

(** __pamc_add_node, pamc_load.c:345-379: the new tree, and what is added to *counter.  Simplification:
    calloc and strdup have memory. *)
Fixpoint add_node (t : tree) (id : cstr) : tree * Z :=
  match t with
  | Leaf => (Node Leaf 0 id Leaf, 1)
  | Node l n x r =>
    match strcmp id x with
    | Eq => (t, 0)
    | Gt => let (r, k) := add_node r id in (Node l (n + k) x r, 0)
    | Lt => let (l, k) := add_node l id in (Node l (n + k) x r, 0)
    end
  end.

(** The entries in the order __pamc_fill_list_from_tree, pamc_load.c:405-414, stores them. *)
Fixpoint in_order (t : tree) : list cstr :=
  match t with
  | Leaf => []
  | Node l _ x r => in_order l ++ x :: in_order r
  end.

(** The loops of pamc_list_agents, pamc_load.c:427-449: [names] are the entries of the directories that
    could be opened, in the order readdir gives them. *)
Fixpoint add_all (t : tree) (total : Z) (names : list cstr) : tree * Z :=
  match names with
  | [] => (t, total)
  | n :: r => if valid_agent_id n then let (t, k) := add_node t n in add_all t (total + k) r
              else add_all t total r
  end.

(** pamc_list_agents, pamc_load.c:420-468: the entries before the NULL of the array returned, or NULL;
    [mem] is calloc's.  Writing past the array of total+1 entries is undefined, and so is, for the caller,
    an array without a NULL. *)
Definition list_agents (ndebug mem : bool) (names : list cstr) : res (ended (option (list cstr))) :=
  let (t, total) := add_all Leaf 0 names in
  if negb mem then Ok (Goes None)
  else if (Z.of_nat (length (in_order t)) >? total + 1) then UB
  else if (Z.of_nat (length (in_order t)) =? total) then Ok (Goes (Some (in_order t)))
  else if ndebug then UB else Ok Exits.

(** The descriptors the new process closes before it becomes the agent, pamc_load.c:90-104; [top] is
    pch->highest_fd_to_close (10, libpamc.h:26) and [out] from_agent[1]. *)
Definition child_closes (top out fd : Z) : bool :=
  let top := if top <? out then 2 * out else top in
  (3 <=? fd) && (fd <=? top).
