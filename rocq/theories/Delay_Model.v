(** Model of libpam/pam_delay.c: delays after failures. *)
From Coq Require Import List Arith ZArith QArith Qround Bool.
From Verif Require Import Base.
Import ListNotations.
Local Open Scope Z_scope.

(** struct _pam_fail_delay, libpam/pam_private.h:121-126; the application's function (delay_fn_ptr) is
    an argument of [await_timer]. *)
Record fail_delay := mkFD { fd_set : bool; fd_delay : Z; fd_begin : Z }.

(** UINT_MAX of limits.h, 32 bits; used at libpam/pam_delay.c:89-95. *)
Definition UINT_MAX : Z := 4294967295.
(** ULLONG_MAX of limits.h, 64 bits; used at libpam/pam_delay.c:89-95. *)
Definition ULLONG_MAX : Z := 18446744073709551615.

(** _pam_reset_timer, libpam/pam_delay.c:30-34. *)
Definition reset_timer (t : fail_delay) : fail_delay := mkFD false (fd_delay t) (fd_begin t).

(** _pam_start_timer, libpam/pam_delay.c:44-48. *)
Definition start_timer (now : Z) (t : fail_delay) : fail_delay := mkFD (fd_set t) (fd_delay t) now.

(** pam_fail_delay, libpam/pam_delay.c:156-179, with pamh not NULL; [usec] is an unsigned int. *)
Definition pam_fail_delay (usec : Z) (t : fail_delay) : Z * fail_delay :=
  let largest := if fd_set t then fd_delay t else 0 in
  (PAM_SUCCESS, mkFD true (if largest <? usec then usec else fd_delay t) (fd_begin t)).

(** _pam_rand, libpam/pam_delay.c:62-76: what getrandom delivers (an unsigned int), None when it fails;
    otherwise the linear congruence in 32 bit unsigned arithmetic. *)
Definition rand (getrandom : option Z) (seed : Z) : Z :=
  match getrandom with Some v => v mod (UINT_MAX + 1) | None => (1664525 * seed + 1013904223) mod (UINT_MAX + 1) end.

(** libpam/pam_delay.c:85-88: the sum of the three draws is an exact double (below 2^53). *)
Definition draw (seed : Z) : Z := (seed / 10) mod 1000000.
(** The three rounds of the loop at libpam/pam_delay.c:85-88. *)
Definition draws (r1 r2 r3 : option Z) (seed : Z) : Z :=
  let s1 := rand r1 seed in let s2 := rand r2 s1 in let s3 := rand r3 s2 in draw s1 + draw s2 + draw s3.

Section Compute.
(** Rounding of the result of each floating point operation, in the order of the program text:
    sum/3., (...)/1e6, ... - .5, 1.+sum, base*(...).  1e6, .5, 3. and 1. are exact doubles. *)
Variables rnd1 rnd2 rnd3 rnd4 rnd5 : Q -> Q.

(** libpam/pam_delay.c:89-91; None: the conversion of the double to unsigned long long is undefined. *)
Definition scaled (sum base : Z) : Q :=
  let s := rnd1 (inject_Z sum / 3)%Q in
  let s := rnd2 (s / 1000000)%Q in
  let s := rnd3 (s - (1 # 2))%Q in
  rnd5 (inject_Z base * rnd4 (1 + s))%Q.
(** The conversion to unsigned long long at libpam/pam_delay.c:89-91; undefined when out of range. *)
Definition to_ull (q : Q) : res Z :=
  (* (double) ULLONG_MAX is 2^64 *)
  if Qle_bool q (inject_Z (ULLONG_MAX + 1)) then
    if Qle_bool (inject_Z (ULLONG_MAX + 1)) q then UB
    else if Qle_bool q (-1 # 1) then UB else Ok (if Qle_bool 0 q then Qfloor q else Qceiling q)
  else Ok ULLONG_MAX.
(** _pam_compute_delay, libpam/pam_delay.c:78-95.  [seed]: fail_delay.begin converted to unsigned int. *)
Definition compute_delay (r1 r2 r3 : option Z) (seed base : Z) : res Z :=
  to_ull (scaled (draws r1 r2 r3 seed) base).

(** What the caller can observe: the application's function called with the status and a delay, or a
    sleep of seconds and microseconds (the process suspends itself in select). *)
Inductive waited := WFunction (status delay : Z) | WSleep (sec usec : Z) | WNothing.

(** _pam_await_timer, libpam/pam_delay.c:105-148.  [fn]: the application has set a delay function. *)
Definition await_timer (r1 r2 r3 : option Z) (fn : bool) (status : Z) (t : fail_delay) : res (waited * fail_delay) :=
  bind (compute_delay r1 r2 r3 (fd_begin t mod (UINT_MAX + 1)) (fd_delay t)) (fun delay =>
  let w := if fn then WFunction status (if UINT_MAX <? delay then UINT_MAX else delay)
           else if negb (status =? PAM_SUCCESS) && fd_set t then
             if 0 <? delay then WSleep (delay / 1000000) (delay mod 1000000) else WNothing
           else WNothing in
  Ok (w, reset_timer t)).
End Compute.
