(** C21, C22: delays after failures. *)
From Coq Require Import List Arith ZArith QArith Qround Lia Lqa Bool.
From Verif Require Import Base Delay_Model.
Import ListNotations.
Local Open Scope Z_scope.

(** Rational numbers that are IEEE 754 doubles, and the roundings allowed: any that keep the order and
    doubles.  (Round to nearest is one; so is extended precision followed by rounding to double.) *)
Definition double (q : Q) : Prop := exists m e, Z.abs m <= 2 ^ 53 /\ 0 <= e <= 1000 /\ (q == m # (Z.to_pos (2 ^ e)))%Q.
Definition rounding (rnd : Q -> Q) : Prop :=
  (forall p q, (p <= q)%Q -> (rnd p <= rnd q)%Q) /\ (forall q, double q -> (rnd q == q)%Q).

Lemma double_int : forall n, Z.abs n <= 2 ^ 53 -> double (inject_Z n).
Proof. intros n H. exists n, 0. split; [exact H|]. split; [lia|]. reflexivity. Qed.
Lemma double_half : forall n, Z.abs n <= 2 ^ 53 -> double (n # 2).
Proof. intros n H. exists n, 1. split; [exact H|]. split; [lia|]. reflexivity. Qed.

Lemma round_ge : forall rnd a q, rounding rnd -> double a -> (a <= q)%Q -> (a <= rnd q)%Q.
Proof. intros rnd a q [HM HD] HA H. rewrite <- (HD a HA). apply HM. exact H. Qed.
Lemma round_le : forall rnd a q, rounding rnd -> double a -> (q <= a)%Q -> (rnd q <= a)%Q.
Proof. intros rnd a q [HM HD] HA H. rewrite <- (HD a HA). apply HM. exact H. Qed.

Lemma draw_range : forall s, 0 <= draw s <= 999999.
Proof. intros s. unfold draw. pose proof (Z.mod_pos_bound (s / 10) 1000000). lia. Qed.
Lemma draws_range : forall r1 r2 r3 seed, 0 <= draws r1 r2 r3 seed <= 2999997.
Proof.
  intros r1 r2 r3 seed. unfold draws. cbv zeta. set (s1 := rand r1 seed). set (s2 := rand r2 s1).
  pose proof (draw_range s1). pose proof (draw_range s2). pose proof (draw_range (rand r3 s2)). lia.
Qed.

Lemma Qint_le : forall a b, a <= b -> (inject_Z a <= inject_Z b)%Q.
Proof. intros a b H. rewrite <- Zle_Qle. exact H. Qed.

Lemma scaled_range : forall rnd1 rnd2 rnd3 rnd4 rnd5 sum base,
  rounding rnd1 -> rounding rnd2 -> rounding rnd3 -> rounding rnd4 -> rounding rnd5 ->
  0 <= sum <= 2999997 -> 0 <= base <= UINT_MAX ->
  (base # 2 <= scaled rnd1 rnd2 rnd3 rnd4 rnd5 sum base <= 3 * base # 2)%Q.
Proof.
  intros rnd1 rnd2 rnd3 rnd4 rnd5 sum base R1 R2 R3 R4 R5 HS HB. unfold scaled. cbv zeta.
  assert (S0 : (0 <= inject_Z sum)%Q) by (apply (Qint_le 0); lia).
  assert (S1 : (inject_Z sum <= 2999997)%Q) by (apply (Qint_le sum 2999997); lia).
  assert (B0 : (0 <= inject_Z base)%Q) by (apply (Qint_le 0); lia).
  set (a := rnd1 (inject_Z sum / 3)%Q).
  assert (A0 : (inject_Z 0 <= a)%Q) by (apply round_ge; [exact R1|apply double_int; lia|]; change (inject_Z 0) with 0%Q; apply Qle_shift_div_l; lra).
  assert (A1 : (a <= inject_Z 1000000)%Q) by (apply round_le; [exact R1|apply double_int; lia|]; apply Qle_shift_div_r; [lra|]; change (inject_Z 1000000) with (1000000 # 1)%Q; lra).
  change (inject_Z 0) with (0 # 1)%Q in A0. change (inject_Z 1000000) with (1000000 # 1)%Q in A1.
  set (b := rnd2 (a / 1000000)%Q).
  assert (C0 : (inject_Z 0 <= b)%Q) by (apply round_ge; [exact R2|apply double_int; lia|]; change (inject_Z 0) with 0%Q; apply Qle_shift_div_l; lra).
  assert (C1 : (b <= inject_Z 1)%Q) by (apply round_le; [exact R2|apply double_int; lia|]; apply Qle_shift_div_r; [lra|]; change (inject_Z 1) with 1%Q; lra).
  change (inject_Z 0) with (0 # 1)%Q in C0. change (inject_Z 1) with (1 # 1)%Q in C1.
  set (c := rnd3 (b - (1 # 2))%Q).
  assert (D0 : (-1 # 2 <= c)%Q) by (apply round_ge; [exact R3|apply double_half; lia|lra]).
  assert (D1 : (c <= 1 # 2)%Q) by (apply round_le; [exact R3|apply double_half; lia|lra]).
  set (d := rnd4 (1 + c)%Q).
  assert (E0 : (1 # 2 <= d)%Q) by (apply round_ge; [exact R4|apply double_half; lia|lra]).
  assert (E1 : (d <= 3 # 2)%Q) by (apply round_le; [exact R4|apply double_half; lia|lra]).
  unfold UINT_MAX in HB. split.
  - apply round_ge; [exact R5|apply double_half; lia|].
    assert (X : (inject_Z base * (1 # 2) <= inject_Z base * d)%Q).
    { rewrite !(Qmult_comm (inject_Z base)). apply Qmult_le_compat_r; assumption. }
    assert (Y : (base # 2 == inject_Z base * (1 # 2))%Q) by (unfold Qeq; cbn; lia). rewrite Y. exact X.
  - apply round_le; [exact R5|apply double_half; lia|].
    assert (X : (inject_Z base * d <= inject_Z base * (3 # 2))%Q).
    { rewrite !(Qmult_comm (inject_Z base)). apply Qmult_le_compat_r; assumption. }
    assert (Y : (3 * base # 2 == inject_Z base * (3 # 2))%Q) by (unfold Qeq; cbn [Qnum Qden Qmult inject_Z]; lia). rewrite Y. exact X.
Qed.

Lemma to_ull_range : forall q a b, (a # 2 <= q <= b # 2)%Q -> 0 <= a -> b <= 2 * UINT_MAX * 2 ->
  exists d, to_ull q = Ok d /\ a / 2 <= d <= b / 2.
Proof.
  intros q a b [HA HB] H0 H1. unfold to_ull.
  assert (Q0 : (0 <= q)%Q). { eapply Qle_trans; [|exact HA]. unfold Qle. cbn. lia. }
  assert (QL : (q < inject_Z (ULLONG_MAX + 1))%Q). { eapply Qle_lt_trans; [exact HB|]. unfold Qlt, ULLONG_MAX, UINT_MAX in *. cbn [Qnum Qden inject_Z]. lia. }
  replace (Qle_bool q (inject_Z (ULLONG_MAX + 1))) with true by (symmetry; apply Qle_bool_iff; apply Qlt_le_weak; exact QL).
  destruct (Qle_bool (inject_Z (ULLONG_MAX + 1)) q) eqn:E1; [apply Qle_bool_iff in E1; exfalso; apply (Qle_not_lt _ _ E1 QL)|].
  destruct (Qle_bool q (-1 # 1)) eqn:E2; [apply Qle_bool_iff in E2; exfalso; lra|].
  replace (Qle_bool 0 q) with true by (symmetry; apply Qle_bool_iff; exact Q0).
  exists (Qfloor q). split; [reflexivity|].
  change (a / 2) with (Qfloor (a # 2)). change (b / 2) with (Qfloor (b # 2)). split; apply Qfloor_resp_le; assumption.
Qed.

(** C22: the computed delay is within half the base above and below, for any random numbers, and the
    computation is always defined. *)
Theorem delay_within_half : forall rnd1 rnd2 rnd3 rnd4 rnd5 r1 r2 r3 seed base,
  rounding rnd1 -> rounding rnd2 -> rounding rnd3 -> rounding rnd4 -> rounding rnd5 -> 0 <= base <= 4294967295 ->
  exists d, compute_delay rnd1 rnd2 rnd3 rnd4 rnd5 r1 r2 r3 seed base = Ok d /\ base / 2 <= d <= 3 * base / 2.
Proof.
  intros rnd1 rnd2 rnd3 rnd4 rnd5 r1 r2 r3 seed base R1 R2 R3 R4 R5 HB. unfold compute_delay.
  pose proof (scaled_range rnd1 rnd2 rnd3 rnd4 rnd5 (draws r1 r2 r3 seed) base R1 R2 R3 R4 R5 (draws_range r1 r2 r3 seed) HB) as HR.
  apply to_ull_range with (a := base) (b := 3 * base) in HR; [exact HR|lia|unfold UINT_MAX; lia].
Qed.

Lemma exact_rounding : rounding (fun q => q).
Proof. split; [auto|]. intros q _. reflexivity. Qed.
Example delay_within_half_example :
  compute_delay (fun q => q) (fun q => q) (fun q => q) (fun q => q) (fun q => q) (Some 0) (Some 0) None 5 4000000 = Ok 2520562 /\
  compute_delay (fun q => q) (fun q => q) (fun q => q) (fun q => q) (fun q => q) (Some 9999999) (Some 9999999) (Some 9999999) 5 4294967295 = Ok 6442446647.
Proof. split; vm_compute; reflexivity. Qed.

(** Timer states that arise: [before] is the base of the last completed call (0 before any), [rs] the
    requests made since then, latest first. *)
Inductive timer : fail_delay -> Z -> list Z -> Prop :=
| tm_start : forall b, timer (reset_timer (mkFD false 0 b)) 0 []
| tm_request : forall t before rs usec rv t', timer t before rs -> 0 <= usec <= 4294967295 ->
    pam_fail_delay usec t = (rv, t') -> timer t' before (usec :: rs)
| tm_begin : forall t before rs now, timer t before rs -> timer (start_timer now t) before rs
| tm_done : forall rnd1 rnd2 rnd3 rnd4 rnd5 r1 r2 r3 fn status w t before rs t', timer t before rs ->
    await_timer rnd1 rnd2 rnd3 rnd4 rnd5 r1 r2 r3 fn status t = Ok (w, t') -> timer t' (fd_delay t) [].

Definition largest (rs : list Z) : Z := fold_right Z.max 0 rs.
Definition first (rs : list Z) : Z := last rs 0.
(** What the delay is computed from. *)
Definition base_of (before : Z) (rs : list Z) : Z :=
  match rs with [] => before | _ => if first rs =? 0 then Z.max before (largest rs) else largest rs end.

Lemma largest_bounds : forall rs, Forall (fun u => 0 <= u <= 4294967295) rs -> 0 <= largest rs <= 4294967295.
Proof. intros rs H. induction H as [|u rs HU H IH]; cbn [largest fold_right]; [lia|]. fold (largest rs). lia. Qed.
Lemma first_le : forall rs, Forall (fun u => 0 <= u <= 4294967295) rs -> 0 <= first rs <= largest rs.
Proof.
  intros rs H. induction H as [|u rs HU H IH]; [cbn; lia|]. cbn [largest fold_right]. fold (largest rs).
  destruct rs as [|v rs]; [cbn in *; lia|]. change (first (u :: v :: rs)) with (first (v :: rs)). lia.
Qed.

Lemma timer_inv : forall t before rs, timer t before rs -> Forall (fun u => 0 <= u <= 4294967295) rs /\ 0 <= before <= 4294967295 /\
  fd_set t = (match rs with [] => false | _ => true end) /\ fd_delay t = base_of before rs.
Proof.
  intros t before rs H. induction H as [b|t before rs usec rv t' H IH HU E|t before rs now H IH|rnd1 rnd2 rnd3 rnd4 rnd5 r1 r2 r3 fn status w t before rs t' H IH E].
  - cbn. repeat split; try lia. constructor.
  - destruct IH as (I1 & I2 & I3 & I4). unfold pam_fail_delay in E. injection E as _ <-. cbn [fd_delay fd_set].
    split; [constructor; assumption|]. split; [exact I2|]. split; [reflexivity|]. rewrite I3, I4.
    pose proof (first_le rs I1) as HF. destruct rs as [|r rs].
    + unfold base_of, first. cbn [last largest fold_right]. destruct (0 <? usec) eqn:X; [apply Z.ltb_lt in X|apply Z.ltb_ge in X].
      * destruct (Z.eqb_spec usec 0); lia.
      * destruct (Z.eqb_spec usec 0); lia.
    + unfold base_of. change (first (usec :: r :: rs)) with (first (r :: rs)). set (rr := r :: rs) in *. clearbody rr.
      cbn [largest fold_right]. fold (largest rr). destruct (first rr =? 0).
      * destruct (Z.ltb_spec (Z.max before (largest rr)) usec); lia.
      * destruct (Z.ltb_spec (largest rr) usec); lia.
  - exact IH.
  - unfold await_timer in E. destruct (compute_delay _ _ _ _ _ _ _ _ _ _) as [d| |]; cbn [bind] in E; [|discriminate|discriminate].
    injection E as _ <-. destruct IH as (I1 & I2 & I3 & I4). split; [constructor|]. cbn. rewrite I4.
    pose proof (largest_bounds rs I1). split; [|auto]. unfold base_of. destruct rs; [lia|]. destruct (_ =? 0); lia.
Qed.

(** C21: a failed call sleeps, for a time within a half of the largest delay asked for since the last
    completed call, and afterwards no request is pending - provided the first of those requests was
    not zero, or no call has completed yet. *)
Definition slept (w : waited) : Z := match w with WSleep s u => s * 1000000 + u | _ => 0 end.
Theorem failure_waits_for_largest_request : forall rnd1 rnd2 rnd3 rnd4 rnd5 r1 r2 r3 t before rs status,
  rounding rnd1 -> rounding rnd2 -> rounding rnd3 -> rounding rnd4 -> rounding rnd5 ->
  timer t before rs -> rs <> [] -> 0 < last rs 0 \/ before = 0 -> status <> PAM_SUCCESS ->
  exists w t', await_timer rnd1 rnd2 rnd3 rnd4 rnd5 r1 r2 r3 false status t = Ok (w, t') /\
    largest rs / 2 <= slept w <= 3 * largest rs / 2 /\
    match w with WSleep s u => 0 <= s /\ 0 <= u < 1000000 | WFunction _ _ => False | WNothing => True end /\
    fd_set t' = false.
Proof.
  intros rnd1 rnd2 rnd3 rnd4 rnd5 r1 r2 r3 t before rs status R1 R2 R3 R4 R5 H HN HF HS.
  destruct (timer_inv t before rs H) as (I1 & I2 & I3 & I4).
  assert (B : fd_delay t = largest rs).
  { rewrite I4. unfold base_of. destruct rs as [|r rs]; [congruence|]. pose proof (largest_bounds _ I1).
    destruct (Z.eqb_spec (first (r :: rs)) 0) as [E|E]; [|reflexivity]. destruct HF as [HF|HF]; [unfold first in E; lia|lia]. }
  pose proof (largest_bounds rs I1) as LB.
  destruct (delay_within_half rnd1 rnd2 rnd3 rnd4 rnd5 r1 r2 r3 (fd_begin t mod (UINT_MAX + 1)) (fd_delay t) R1 R2 R3 R4 R5) as (d & E & HD); [lia|].
  unfold await_timer. rewrite E. cbn [bind]. replace (status =? PAM_SUCCESS) with false by (symmetry; apply Z.eqb_neq; exact HS).
  rewrite I3. destruct rs as [|r rs]; [congruence|]. cbn [negb andb]. rewrite B in HD.
  assert (D0 : 0 <= largest (r :: rs) / 2) by (apply Z.div_pos; lia).
  eexists; eexists. split; [reflexivity|]. destruct (0 <? d) eqn:X; [apply Z.ltb_lt in X|apply Z.ltb_ge in X].
  - pose proof (Z.div_mod d 1000000). pose proof (Z.mod_pos_bound d 1000000). pose proof (Z.div_pos d 1000000).
    split; [cbn [slept]; lia|]. split; [lia|reflexivity].
  - split; [cbn [slept]; lia|]. split; [exact I|reflexivity].
Qed.

(** Success, or no request, means no wait. *)
Theorem no_wait_without_failure_or_request : forall rnd1 rnd2 rnd3 rnd4 rnd5 r1 r2 r3 t before rs status,
  rounding rnd1 -> rounding rnd2 -> rounding rnd3 -> rounding rnd4 -> rounding rnd5 ->
  timer t before rs -> status = PAM_SUCCESS \/ rs = [] ->
  exists t', await_timer rnd1 rnd2 rnd3 rnd4 rnd5 r1 r2 r3 false status t = Ok (WNothing, t') /\ fd_set t' = false.
Proof.
  intros rnd1 rnd2 rnd3 rnd4 rnd5 r1 r2 r3 t before rs status R1 R2 R3 R4 R5 H HS.
  destruct (timer_inv t before rs H) as (I1 & I2 & I3 & I4). pose proof (largest_bounds rs I1) as LB.
  assert (BB : 0 <= fd_delay t <= 4294967295) by (rewrite I4; unfold base_of; destruct rs; [lia|]; destruct (_ =? 0); lia).
  destruct (delay_within_half rnd1 rnd2 rnd3 rnd4 rnd5 r1 r2 r3 (fd_begin t mod (UINT_MAX + 1)) (fd_delay t) R1 R2 R3 R4 R5 BB) as (d & E & HD).
  unfold await_timer. rewrite E. cbn [bind]. exists (reset_timer t). split; [|reflexivity]. destruct HS as [->| ->].
  - reflexivity.
  - rewrite I3. rewrite andb_false_r. reflexivity.
Qed.

(** An application's function is called at every completion, with the status, instead of any sleep. *)
Theorem delay_function_always_called : forall rnd1 rnd2 rnd3 rnd4 rnd5 r1 r2 r3 t before rs status,
  rounding rnd1 -> rounding rnd2 -> rounding rnd3 -> rounding rnd4 -> rounding rnd5 ->
  timer t before rs -> rs <> [] -> 0 < last rs 0 \/ before = 0 ->
  exists d t', await_timer rnd1 rnd2 rnd3 rnd4 rnd5 r1 r2 r3 true status t = Ok (WFunction status d, t') /\
    Z.min 4294967295 (largest rs / 2) <= d <= Z.min 4294967295 (3 * largest rs / 2) /\ fd_set t' = false.
Proof.
  intros rnd1 rnd2 rnd3 rnd4 rnd5 r1 r2 r3 t before rs status R1 R2 R3 R4 R5 H HN HF.
  destruct (timer_inv t before rs H) as (I1 & I2 & I3 & I4).
  assert (B : fd_delay t = largest rs).
  { rewrite I4. unfold base_of. destruct rs as [|r rs]; [congruence|]. pose proof (largest_bounds _ I1).
    destruct (Z.eqb_spec (first (r :: rs)) 0) as [E|E]; [|reflexivity]. destruct HF as [HF|HF]; [unfold first in E; lia|lia]. }
  pose proof (largest_bounds rs I1) as LB.
  destruct (delay_within_half rnd1 rnd2 rnd3 rnd4 rnd5 r1 r2 r3 (fd_begin t mod (UINT_MAX + 1)) (fd_delay t) R1 R2 R3 R4 R5) as (d & E & HD); [lia|].
  unfold await_timer. rewrite E. cbn [bind]. rewrite B in HD. eexists; eexists. split; [reflexivity|]. split; [|reflexivity].
  unfold UINT_MAX. destruct (Z.ltb_spec 4294967295 d); lia.
Qed.

Notation exact := (fun q : Q => q).
(** Two modules ask for 2 s and 3 s; the failed call sleeps 2.99 s; the next one, without requests, not at all. *)
Example failure_delay_example : exists t t' t'',
  timer t 0 [3000000; 2000000] /\
  await_timer exact exact exact exact exact (Some 5000000) (Some 4900000) (Some 5000000) false PAM_AUTH_ERR t = Ok (WSleep 2 990000, t') /\
  timer t' 3000000 [] /\
  await_timer exact exact exact exact exact (Some 5000000) (Some 5000000) (Some 5000000) false PAM_AUTH_ERR t' = Ok (WNothing, t'').
Proof.
  exists (mkFD true 3000000 77), (mkFD false 3000000 77), (mkFD false 3000000 77).
  assert (T : timer (mkFD true 3000000 77) 0 [3000000; 2000000]).
  { eapply tm_request with (t := mkFD true 2000000 77); [|lia|reflexivity]. eapply tm_request with (t := mkFD false 0 77); [|lia|reflexivity].
    exact (tm_begin _ _ _ 77 (tm_start 0)). }
  assert (A : await_timer exact exact exact exact exact (Some 5000000) (Some 4900000) (Some 5000000) false PAM_AUTH_ERR (mkFD true 3000000 77) =
    Ok (WSleep 2 990000, mkFD false 3000000 77)) by (vm_compute; reflexivity).
  split; [exact T|]. split; [exact A|]. split; [|vm_compute; reflexivity]. exact (tm_done _ _ _ _ _ _ _ _ _ _ _ _ _ _ _ T A).
Qed.

(** Without the proviso it is false: a request for no delay, made first, revives the delay of an earlier
    call, and a later smaller request does not replace it. *)
Theorem largest_request_decides_refuted : exists t before rs t',
  timer t before rs /\ rs <> [] /\ largest rs = 1000000 /\
  await_timer exact exact exact exact exact (Some 5000000) (Some 5000000) (Some 5000000) false PAM_AUTH_ERR t = Ok (WSleep 30 0, t').
Proof.
  exists (mkFD true 30000000 7), 30000000, [1000000; 0], (mkFD false 30000000 7).
  split; [|split; [discriminate|split; [reflexivity|vm_compute; reflexivity]]].
  eapply tm_request with (t := mkFD true 30000000 7); [|lia|reflexivity].
  eapply tm_request with (t := mkFD false 30000000 7); [|lia|reflexivity].
  apply (tm_done exact exact exact exact exact None None None true PAM_SUCCESS (WFunction PAM_SUCCESS 24611250) (mkFD true 30000000 7) 0 [30000000]).
  - eapply tm_request with (t := mkFD false 0 7); [|lia|reflexivity]. exact (tm_start 7).
  - vm_compute. reflexivity.
Qed.

(** An application's function is told a delay although nobody asked for one in this call. *)
Theorem delay_function_told_of_stale_delay_refuted : exists t before t',
  timer t before [] /\ await_timer exact exact exact exact exact (Some 5000000) (Some 5000000) (Some 5000000) true PAM_SUCCESS t = Ok (WFunction PAM_SUCCESS 30000000, t').
Proof.
  exists (mkFD false 30000000 7), 30000000, (mkFD false 30000000 7). split; [|vm_compute; reflexivity].
  apply (tm_done exact exact exact exact exact None None None true PAM_SUCCESS (WFunction PAM_SUCCESS 24611250) (mkFD true 30000000 7) 0 [30000000]).
  - eapply tm_request with (t := mkFD false 0 7); [|lia|reflexivity]. exact (tm_start 7).
  - vm_compute. reflexivity.
Qed.

Print Assumptions delay_within_half.
Print Assumptions failure_waits_for_largest_request.
Print Assumptions no_wait_without_failure_or_request.
Print Assumptions delay_function_always_called.
Print Assumptions largest_request_decides_refuted.
Print Assumptions delay_function_told_of_stale_delay_refuted.
