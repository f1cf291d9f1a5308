(** C46: the options of pam_unix mean what pam_unix(8) says. *)
From Coq Require Import String Ascii List Arith NArith ZArith Lia Bool.
From Verif Require Import Base Num_Model Unixctl_Model.
Import ListNotations.
Local Open Scope Z_scope.

(** * The specification *)

(** An argument is option [t] when it starts with its name. *)
Definition given (t : string) (argv : list cstr) : Prop := exists a r, In a argv /\ a = (lit t ++ r)%list.

(** Hash methods and the position of their flag; "des" has none. *)
Definition methods : list (string * nat) :=
  [("md5"%string, MD5_PASS); ("bigcrypt"%string, BIGCRYPT); ("sha256"%string, SHA256_PASS); ("sha512"%string, SHA512_PASS);
   ("blowfish"%string, BLOWFISH_PASS); ("gost_yescrypt"%string, GOST_YESCRYPT); ("yescrypt"%string, YESCRYPT); ("des"%string, DES)].
(** Options that only turn on a flag of their own. *)
Definition simple : list (string * nat) :=
  [("audit"%string, AUDIT); ("use_authtok"%string, USE_AUTHTOK); ("shadow"%string, SHADOW); ("nodelay"%string, NODELAY);
   ("nis"%string, NIS); ("likeauth"%string, LIKE_AUTH); ("noreap"%string, NOREAP); ("broken_shadow"%string, BROKEN_SHADOW);
   ("no_pass_expiry"%string, NO_PASS_EXPIRY); ("nullresetok"%string, NULLRESETOK)].

(** The method an argument names, if any; the last argument naming one decides. *)
Definition method_of (a : cstr) : option nat :=
  option_map snd (find (fun m => is_prefix (lit (fst m)) a) methods).
Fixpoint last_method (argv : list cstr) : option nat :=
  match argv with
  | [] => None
  | a :: rest => match last_method rest with Some m => Some m | None => method_of a end
  end.
(** The method of /etc/login.defs, upper or lower case. *)
Definition defs_method (val : option cstr) : option nat :=
  match val with Some v => method_of (map tolower v) | None => None end.

(** * Bits *)
Lemma on_testbit : forall x b c, flag_of x = N.shiftl 1 b -> on x c = N.testbit c b.
Proof.
  intros x b c E. unfold on. rewrite E. rewrite N.shiftl_1_l.
  destruct (N.testbit c b) eqn:T.
  - apply negb_true_iff. apply N.eqb_neq. intro Z0. assert (X : N.testbit (N.land (2 ^ b) c) b = true) by (rewrite N.land_spec, N.pow2_bits_true, T; reflexivity).
    rewrite Z0, N.bits_0 in X. discriminate.
  - apply negb_false_iff. apply N.eqb_eq. apply N.bits_inj. intro k. rewrite N.bits_0, N.land_spec.
    destruct (N.eq_dec b k) as [->|D]; [rewrite T; apply andb_false_r|rewrite N.pow2_bits_false by exact D; reflexivity].
Qed.

(** The bit a table position stands for. *)
Definition bitno (x : nat) : N := N.log2 (flag_of x).
Lemma on_bit : forall x c, flag_of x = N.shiftl 1 (bitno x) -> on x c = N.testbit c (bitno x).
Proof. intros. apply on_testbit. assumption. Qed.

Lemma apply_row_bit : forall r c b, N.testbit (apply_row r c) b = (N.testbit c b && N.testbit (cmask r) b) || N.testbit (cflag r) b.
Proof. intros. unfold apply_row. rewrite N.lor_spec, N.land_spec. reflexivity. Qed.
Lemma set_row : forall x r, nth_error unix_args x = Some r -> forall c, set x c = apply_row r c.
Proof. intros x r E c. unfold set, apply_row, mask_of, flag_of. rewrite E. reflexivity. Qed.
Lemma set_bit : forall x c b, N.testbit (set x c) b = (N.testbit c b && N.testbit (mask_of x) b) || N.testbit (flag_of x) b.
Proof. intros. unfold set. rewrite N.lor_spec, N.land_spec. reflexivity. Qed.
Lemma unset_bit : forall x c b, N.testbit (unset x c) b = N.testbit c b && N.testbit (N.lxor ALL_ON (flag_of x)) b.
Proof. intros. unfold unset. apply N.land_spec. Qed.

(** * Finding rows *)
Lemma find_row_some : forall p rows j k r, find_row p j rows = Some (k, r) -> (j <= k)%nat /\ nth_error rows (k - j) = Some r /\ p r = true.
Proof.
  induction rows as [|r0 rows IH]; intros j k r H; cbn [find_row] in H; [discriminate|].
  destruct (p r0) eqn:E.
  - injection H as <- <-. rewrite Nat.sub_diag. cbn. auto.
  - apply IH in H. destruct H as (L & N0 & P). split; [lia|]. split; [|exact P]. replace (k - j)%nat with (S (k - S j)) by lia. exact N0.
Qed.
Lemma find_row_none : forall p rows j, find_row p j rows = None -> forall r, In r rows -> p r = false.
Proof.
  induction rows as [|r0 rows IH]; intros j H r I; [destruct I|]. cbn [find_row] in H. destruct (p r0) eqn:E; [discriminate|].
  destruct I as [<-|I]; [exact E|eapply IH; eassumption].
Qed.

Lemma both_prefixes : forall a b s, is_prefix a s = true -> is_prefix b s = true -> is_prefix a b = true \/ is_prefix b a = true.
Proof.
  induction a as [|x a IH]; intros b s A B; [left; reflexivity|].
  destruct b as [|y b]; [right; reflexivity|]. destruct s as [|z s]; [discriminate|]. cbn [is_prefix] in *.
  apply andb_prop in A. apply andb_prop in B. destruct A as [A1 A2], B as [B1 B2].
  apply Ascii.eqb_eq in A1. apply Ascii.eqb_eq in B1. subst. destruct (IH _ _ A2 B2) as [H|H]; [left|right]; rewrite Ascii.eqb_refl, H; reflexivity.
Qed.

(** No option's name starts another's: the row found does not depend on the order. *)
Definition apart (l : list uctrl) : bool :=
  forallb (fun i => forallb (fun j => (i =? j)%nat || match nth_error l i, nth_error l j with
    | Some r, Some q => match token r, token q with Some t, Some u => negb (is_prefix t u) | _, _ => true end | _, _ => true end)
    (seq 0 (length l))) (seq 0 (length l)).
Lemma table_apart : apart unix_args = true.
Proof. vm_compute. reflexivity. Qed.
Lemma in_range : forall i n, (i < n)%nat -> In i (seq 0 n).
Proof. intros i n L. apply in_seq. split; [apply Nat.le_0_l|exact L]. Qed.
Lemma apart_use : forall i j r q t u, nth_error unix_args i = Some r -> nth_error unix_args j = Some q -> token r = Some t -> token q = Some u ->
  is_prefix t u = true -> i = j.
Proof.
  intros i j r q t u I J T U P. pose proof table_apart as H. unfold apart in H. rewrite forallb_forall in H.
  assert (Li : (i < length unix_args)%nat) by (apply nth_error_Some; congruence).
  assert (Lj : (j < length unix_args)%nat) by (apply nth_error_Some; congruence).
  specialize (H i (in_range _ _ Li)). rewrite forallb_forall in H.
  specialize (H j (in_range _ _ Lj)). rewrite I, J, T, U, P in H. cbn [negb] in H. rewrite orb_false_r in H. apply Nat.eqb_eq. exact H.
Qed.

Lemma find_named : forall j r t a, nth_error unix_args j = Some r -> token r = Some t -> is_prefix t a = true ->
  find_row (names_option a) 0 unix_args = Some (j, r).
Proof.
  intros j r t a J T P. destruct (find_row (names_option a) 0 unix_args) as [[k q]|] eqn:E.
  - apply find_row_some in E. destruct E as (_ & K & Q). rewrite Nat.sub_0_r in K. unfold names_option in Q. destruct (token q) as [u|] eqn:U; [|discriminate].
    destruct (both_prefixes _ _ _ P Q) as [X|X].
    + pose proof (apart_use _ _ _ _ _ _ J K T U X). subst k. congruence.
    + pose proof (apart_use _ _ _ _ _ _ K J U T X). subst k. congruence.
  - pose proof (find_row_none _ _ _ E r (nth_error_In _ _ J)) as X. unfold names_option in X. rewrite T in X. congruence.
Qed.
Lemma find_is_named : forall a j r, find_row (names_option a) 0 unix_args = Some (j, r) ->
  nth_error unix_args j = Some r /\ exists t, token r = Some t /\ is_prefix t a = true.
Proof.
  intros a j r E. apply find_row_some in E. destruct E as (_ & K & Q). rewrite Nat.sub_0_r in K. split; [exact K|].
  unfold names_option in Q. destruct (token r) as [t|]; [exists t; auto|discriminate].
Qed.

(** * One argument *)
(** The control word after an argument is the old one or the row applied. *)
Lemma one_arg_ctrl : forall a c v, fst (one_arg a (c, v)) = c \/
  exists j r, find_row (names_option a) 0 unix_args = Some (j, r) /\ fst (one_arg a (c, v)) = apply_row r c.
Proof.
  intros a c v. unfold one_arg. destruct (find_row (names_option a) 0 unix_args) as [[j r]|] eqn:E; [|left; reflexivity].
  destruct (j =? REMEMBER)%nat.
  { destruct (v_remember v); [|left; reflexivity]. destruct (strtoi _ _) as [n ok]. destruct ok; [right; eauto|left; reflexivity]. }
  destruct (j =? MIN_PASS_LEN)%nat.
  { destruct (v_minlen v); [|left; reflexivity]. destruct (strtoi _ _) as [n ok]. destruct ok; [right; eauto|left; reflexivity]. }
  destruct (j =? ROUNDS)%nat.
  { destruct (v_rounds v); [|left; reflexivity]. destruct (strtoi _ _) as [n ok]. destruct ok; [right; eauto|left; reflexivity]. }
  right; eauto.
Qed.
Definition valued (j : nat) : bool := (j =? REMEMBER)%nat || (j =? MIN_PASS_LEN)%nat || (j =? ROUNDS)%nat.
Lemma one_arg_plain : forall a c v j r, find_row (names_option a) 0 unix_args = Some (j, r) -> valued j = false ->
  one_arg a (c, v) = (apply_row r c, v).
Proof.
  intros a c v j r E V. unfold one_arg. rewrite E. unfold valued in V. apply orb_false_elim in V. destruct V as [V V3]. apply orb_false_elim in V. destruct V as [V1 V2].
  rewrite V1, V2, V3. reflexivity.
Qed.

(** A bit that no other row touches. *)
Definition own_bit (x : nat) (b : N) : bool :=
  forallb (fun j => (j =? x)%nat || match nth_error unix_args j with
     | Some r => match token r with Some _ => N.testbit (cmask r) b && negb (N.testbit (cflag r) b) | None => true end | None => true end) (seq 0 (length unix_args)).
Lemma own_bit_use : forall x b j r t, own_bit x b = true -> nth_error unix_args j = Some r -> token r = Some t -> j <> x ->
  N.testbit (cmask r) b = true /\ N.testbit (cflag r) b = false.
Proof.
  intros x b j r t O J T D. unfold own_bit in O. rewrite forallb_forall in O.
  assert (Lj : (j < length unix_args)%nat) by (apply nth_error_Some; congruence).
  specialize (O j (in_range _ _ Lj)). rewrite J, T in O. apply Nat.eqb_neq in D. rewrite D in O. cbn [orb] in O.
  apply andb_prop in O. destruct O as [O1 O2]. split; [exact O1|]. apply negb_true_iff. exact O2.
Qed.

Definition matches (x : nat) (a : cstr) : bool :=
  match nth_error unix_args x with Some r => names_option a r | None => false end.

(** Bit [b] after the arguments, for a row [x] that alone touches it: [y] is what the row makes of it. *)
Lemma args_bit : forall x b r, nth_error unix_args x = Some r -> own_bit x b = true -> valued x = false ->
  forall argv c v, N.testbit (fst (fold_left (fun s a => one_arg a s) argv (c, v))) b =
    if existsb (matches x) argv then (if N.testbit (cflag r) b then true else N.testbit (cmask r) b && N.testbit c b) else N.testbit c b.
Proof.
  intros x b r X O V. induction argv as [|a argv IH]; intros c v; [reflexivity|]. cbn [fold_left existsb].
  destruct (one_arg a (c, v)) as [c' v'] eqn:E. rewrite IH.
  assert (S : N.testbit c' b = if matches x a then (if N.testbit (cflag r) b then true else N.testbit (cmask r) b && N.testbit c b) else N.testbit c b).
  { unfold matches. rewrite X. destruct (names_option a r) eqn:M.
    - unfold names_option in M. destruct (token r) as [t|] eqn:T; [|discriminate].
      pose proof (find_named _ _ _ _ X T M) as F. rewrite (one_arg_plain _ _ _ _ _ F V) in E. injection E as <- _.
      rewrite apply_row_bit. destruct (N.testbit (cflag r) b); [apply orb_true_r|]. rewrite orb_false_r, andb_comm. reflexivity.
    - pose proof (one_arg_ctrl a c v) as H. rewrite E in H. cbn [fst] in H. destruct H as [->|(j & q & F & ->)]; [reflexivity|].
      apply find_is_named in F. destruct F as (J & t & T & P).
      assert (D : j <> x). { intros ->. rewrite X in J. injection J as <-. unfold names_option in M. rewrite T in M. congruence. }
      destruct (own_bit_use _ _ _ _ _ O J T D) as [A B]. rewrite apply_row_bit, A, B, andb_true_r, orb_false_r. reflexivity. }
  rewrite S. destruct (matches x a), (existsb (matches x) argv); cbn [orb]; destruct (N.testbit (cflag r) b); try reflexivity.
  destruct (N.testbit (cmask r) b); reflexivity.
Qed.

(** * The rest of the function leaves most bits alone *)
Lemma off_eq : forall x c, off x c = negb (on x c).
Proof. reflexivity. Qed.

Definition ctrl_end (flags : N) (c : N) (c' : N) (b : N) : Prop :=
  N.testbit c' b = N.testbit c b.

Lemma rounds_flag_only : forall b, b <> 24%N -> forall c, N.testbit (set ROUNDS c) b = N.testbit c b \/ (64 <= b)%N.
Proof.
  intros b D c. destruct (N.lt_ge_cases b 64) as [L|G]; [left|right; exact G]. rewrite set_bit.
  assert (F : N.testbit (flag_of ROUNDS) b = false). { change (flag_of ROUNDS) with (2 ^ 24)%N. apply N.pow2_bits_false. congruence. }
  assert (M : N.testbit (mask_of ROUNDS) b = true). { change (mask_of ROUNDS) with (N.ones 64). apply N.ones_spec_low. exact L. }
  rewrite F, M, andb_true_r, orb_false_r. reflexivity.
Qed.
Lemma unset_rounds : forall b, b <> 24%N -> forall c, N.testbit (unset ROUNDS c) b = N.testbit c b \/ (64 <= b)%N.
Proof.
  intros b D c. destruct (N.lt_ge_cases b 64) as [L|G]; [left|right; exact G]. rewrite unset_bit.
  rewrite N.lxor_spec. change (flag_of ROUNDS) with (2 ^ 24)%N. change ALL_ON with (N.ones 64). rewrite N.pow2_bits_false by congruence. rewrite N.ones_spec_low by exact L.
  apply andb_true_r.
Qed.
Lemma flag64 : forall x b, (b < 64)%N -> forall c, (N.testbit (flag_of x) b = false /\ N.testbit (mask_of x) b = true) -> N.testbit (set x c) b = N.testbit c b.
Proof. intros x b L c [F M]. rewrite set_bit, F, M, andb_true_r, orb_false_r. reflexivity. Qed.

Lemma tail_bit : forall defs s c' v' b, (b < 64)%N -> b <> 24%N ->
  sane_rounds (default_rounds (rounds_from_defs defs s)) = Ok (c', v') -> N.testbit c' b = N.testbit (fst s) b.
Proof.
  intros defs [c v] c' v' b L D H.
  assert (SR : forall c, N.testbit (set ROUNDS c) b = N.testbit c b) by (intro k; destruct (rounds_flag_only b D k) as [X|X]; [exact X|lia]).
  assert (UR : forall c, N.testbit (unset ROUNDS c) b = N.testbit c b) by (intro k; destruct (unset_rounds b D k) as [X|X]; [exact X|lia]).
  assert (A : N.testbit (fst (rounds_from_defs defs (c, v))) b = N.testbit c b).
  { unfold rounds_from_defs. destruct (v_rounds v); [|reflexivity]. destruct (off ROUNDS c); [|reflexivity].
    match goal with |- context [match ?k with Some _ => _ | None => _ end] => destruct k as [key|] end; [|reflexivity].
    destruct (defs key) as [val|]; [|reflexivity]. destruct (strtoi val 0) as [n ok]. destruct ok; cbn [fst]; [apply SR|reflexivity]. }
  destruct (rounds_from_defs defs (c, v)) as [c1 v1] eqn:E1. cbn [fst] in *.
  assert (B : N.testbit (fst (default_rounds (c1, v1))) b = N.testbit c1 b).
  { unfold default_rounds. destruct (v_rounds v1); [|reflexivity].
    destruct (off ROUNDS c1 && (on BLOWFISH_PASS c1 || on GOST_YESCRYPT c1 || on YESCRYPT c1)); cbn [fst]; [apply SR|reflexivity]. }
  destruct (default_rounds (c1, v1)) as [c2 v2]. cbn [fst] in *.
  assert (C : N.testbit c' b = N.testbit c2 b).
  { revert H. unfold sane_rounds. destruct (on ROUNDS c2); [|intro H; injection H as <- <-; reflexivity].
    destruct (on GOST_YESCRYPT c2 || on YESCRYPT c2); [destruct (v_rounds v2); [|discriminate]; intro H; injection H as <- <-; reflexivity|].
    destruct (on BLOWFISH_PASS c2); [destruct (v_rounds v2); [|discriminate]; intro H; injection H as <- <-; reflexivity|].
    destruct (on SHA256_PASS c2 || on SHA512_PASS c2); [|intro H; injection H as <- <-; reflexivity].
    destruct (v_rounds v2) as [n|]; [|discriminate]. destruct ((n <? 1000) || (n =? INT_MAX)); [intro H; injection H as <- <-; apply UR|].
    destruct (10000000 <=? n); intro H; injection H as <- <-; reflexivity. }
  congruence.
Qed.

(** * Options with a flag of their own *)
Lemma matches_given : forall t x r argv, nth_error unix_args x = Some r -> token r = Some (lit t) ->
  (existsb (matches x) argv = true <-> given t argv).
Proof.
  intros t x r argv X T. rewrite existsb_exists. unfold matches, names_option, given. rewrite X, T. split.
  - intros (a & I & P). apply is_prefix_spec in P. destruct P as [q ->]. exists (lit t ++ q)%list, q. auto.
  - intros (a & q & I & ->). exists (lit t ++ q)%list. split; [exact I|]. apply is_prefix_spec. exists q. reflexivity.
Qed.

Lemma not_true : forall b : bool, b <> true -> b = false.
Proof. intros [|] H; [contradiction|reflexivity]. Qed.

(** Before the arguments. *)
Lemma has_cases : forall flags, has flags F_CHANGE_EXPIRED = true \/ has flags F_CHANGE_EXPIRED = false.
Proof. intro f. destruct (has f F_CHANGE_EXPIRED); auto. Qed.
Definition starts (root : bool) (flags : N) : N := manual_flags root flags.

Lemma manual_cases : forall root flags (P : N -> Prop),
  (forall a e u p q : bool, P (let c := DEFAULTS in let c := if a then set IAMROOT c else c in let c := if e then set EXPIRED_ONLY c else c in
     let c := if u then set UPDATE c else c in let c := if p then set PRELIM c else c in if q then set QUIET_ c else c)) -> P (manual_flags root flags).
Proof. intros root flags P H. apply (H (root && negb (has flags F_CHANGE_EXPIRED)) (has flags F_CHANGE_EXPIRED) (has flags F_UPDATE) (has flags F_PRELIM) (has flags F_SILENT)). Qed.

Definition hash_bits : list N := [13; 17; 22; 23; 25; 29; 30]%N.
Lemma manual_bit : forall b, In b ([3; 4; 5; 6; 11; 12; 14; 15; 16; 18; 19; 20; 21; 24; 26; 27; 28; 31]%N ++ hash_bits) ->
  forall root flags, N.testbit (manual_flags root flags) b = false.
Proof.
  intros b I root flags. apply manual_cases. intros a e u p q.
  assert (H : forallb (fun b => negb (N.testbit (let c := DEFAULTS in let c := if a then set IAMROOT c else c in let c := if e then set EXPIRED_ONLY c else c in
     let c := if u then set UPDATE c else c in let c := if p then set PRELIM c else c in if q then set QUIET_ c else c) b))
     ([3; 4; 5; 6; 11; 12; 14; 15; 16; 18; 19; 20; 21; 24; 26; 27; 28; 31]%N ++ hash_bits) = true) by (destruct a, e, u, p, q; vm_compute; reflexivity).
  rewrite forallb_forall in H. apply negb_true_iff. apply H. exact I.
Qed.
Lemma manual_nonull : forall root flags, N.testbit (manual_flags root flags) 9 = true.
Proof. intros root flags. apply manual_cases. intros a e u p q. destruct a, e, u, p, q; vm_compute; reflexivity. Qed.

Definition hash_rows_only (b : N) : bool := forallb (fun r => negb (is_hash r) || (N.testbit (cmask r) b && negb (N.testbit (cflag r) b))) unix_args.
Lemma preset_bit : forall b, hash_rows_only b = true -> forall m c, N.testbit (preset m c) b = N.testbit c b.
Proof.
  intros b H m c. unfold preset. destruct m as [val|]; [|reflexivity]. destruct (find_row _ _ _) as [[j r]|] eqn:E; [|reflexivity].
  apply find_row_some in E. destruct E as (_ & J & P). unfold names_method in P. destruct (token r); [|discriminate]. apply andb_prop in P. destruct P as [P _].
  unfold hash_rows_only in H. rewrite forallb_forall in H. specialize (H r (nth_error_In _ _ J)). rewrite P in H. cbn [negb orb] in H. apply andb_prop in H. destruct H as [A B].
  apply negb_true_iff in B. rewrite apply_row_bit, A, B, andb_true_r, orb_false_r. reflexivity.
Qed.

(** After the arguments: every bit but NONULL, ROUNDS and DEBUG keeps its value. *)
Lemma after_bit : forall flags s b, (b < 64)%N -> b <> 9%N -> N.testbit (fst (after_args flags s)) b = N.testbit (fst s) b.
Proof.
  intros flags [c v] b L D. unfold after_args. cbn [fst]. destruct (has flags F_DISALLOW_NULL); [|reflexivity].
  rewrite set_bit. change (flag_of NONULL) with (2 ^ 9)%N. change (mask_of NONULL) with (N.ones 64). rewrite N.pow2_bits_false by congruence.
  rewrite N.ones_spec_low by exact L. rewrite andb_true_r, orb_false_r. reflexivity.
Qed.

Definition args (root : bool) (flags : N) (defs : cstr -> option cstr) (v : vals) (argv : list cstr) : N * vals :=
  fold_left (fun s a => one_arg a s) argv (preset (defs (lit "ENCRYPT_METHOD")) (manual_flags root flags), v).

Lemma set_ctrl_bit : forall root flags defs v argv c' v' b, set_ctrl root flags defs v argv = Ok (c', v') -> (b < 64)%N -> b <> 9%N -> b <> 24%N -> b <> 14%N ->
  N.testbit c' b = N.testbit (fst (args root flags defs v argv)) b.
Proof.
  intros root flags defs v argv c' v' b H L D1 D2 D3. unfold set_ctrl in H. fold (args root flags defs v argv) in H.
  destruct (sane_rounds _) as [[c1 v1]| |] eqn:E; cbn [bind] in H; try discriminate. injection H as <- <-.
  assert (T : N.testbit (if on AUDIT c1 then set DEBUG c1 else c1) b = N.testbit c1 b).
  { destruct (on AUDIT c1); [|reflexivity]. rewrite set_bit. change (flag_of DEBUG) with (2 ^ 14)%N. change (mask_of DEBUG) with (N.ones 64).
    rewrite N.pow2_bits_false by congruence. rewrite N.ones_spec_low by exact L. rewrite andb_true_r, orb_false_r. reflexivity. }
  rewrite T. rewrite (tail_bit _ _ _ _ _ L D2 E). apply after_bit; assumption.
Qed.

(** The seven hash methods with a flag. *)
Definition flagged : list nat := [MD5_PASS; BIGCRYPT; SHA256_PASS; SHA512_PASS; BLOWFISH_PASS; GOST_YESCRYPT; YESCRYPT].
Lemma flagged_bits : forall x, In x flagged -> In (bitno x) hash_bits /\ flag_of x = N.shiftl 1 (bitno x).
Proof.
  intros x I. assert (H : forallb (fun x => existsb (N.eqb (bitno x)) hash_bits && N.eqb (flag_of x) (N.shiftl 1 (bitno x))) flagged = true) by (vm_compute; reflexivity).
  rewrite forallb_forall in H. specialize (H x I). apply andb_prop in H. destruct H as [A B]. apply existsb_exists in A. destruct A as (b & I' & E).
  apply N.eqb_eq in E. apply N.eqb_eq in B. rewrite E. split; [exact I'|]. rewrite <- E. exact B.
Qed.

Definition is_method (c : N) (m : option nat) : Prop := forall x, In x flagged -> (on x c = true <-> m = Some x).

Definition row_method (j : nat) (r : uctrl) : bool :=
  match token r with
  | None => true
  | Some _ =>
    forallb (fun x => if is_hash r then negb (N.testbit (cmask r) (bitno x)) && Bool.eqb (N.testbit (cflag r) (bitno x)) (j =? x)%nat
                      else N.testbit (cmask r) (bitno x) && negb (N.testbit (cflag r) (bitno x))) flagged
  end.
Lemma rows_methods : forallb (fun j => match nth_error unix_args j with Some r => row_method j r | None => true end) (seq 0 (length unix_args)) = true.
Proof. vm_compute. reflexivity. Qed.
Lemma row_method_ok : forall j r, nth_error unix_args j = Some r -> row_method j r = true.
Proof.
  intros j r J. pose proof rows_methods as H. rewrite forallb_forall in H. assert (Lj : (j < length unix_args)%nat) by (apply nth_error_Some; congruence).
  specialize (H j (in_range _ _ Lj)). rewrite J in H. exact H.
Qed.
Lemma apply_method : forall j r t c m, nth_error unix_args j = Some r -> token r = Some t -> is_method c m ->
  is_method (apply_row r c) (if is_hash r then Some j else m).
Proof.
  intros j r t c m J T M x I. pose proof (row_method_ok _ _ J) as R. unfold row_method in R. rewrite T in R. rewrite forallb_forall in R. specialize (R x I).
  destruct (flagged_bits x I) as [_ F]. rewrite (on_bit x _ F), apply_row_bit. specialize (M x I). rewrite (on_bit x _ F) in M.
  destruct (is_hash r); apply andb_prop in R; destruct R as [A B].
  - apply negb_true_iff in A. apply eqb_prop in B. rewrite A, B, andb_false_r. cbn [orb]. rewrite Nat.eqb_eq. split; [intros ->; reflexivity|congruence].
  - apply negb_true_iff in B. rewrite A, B, andb_true_r, orb_false_r. exact M.
Qed.

(** The methods listed in the specification are the rows marked as hash methods. *)
Lemma methods_rows : forall t x, In (t, x) methods -> exists r, nth_error unix_args x = Some r /\ token r = Some (lit t) /\ is_hash r = true.
Proof.
  intros t x I. cbn [methods In] in I.
  repeat (destruct I as [I|I]; [injection I as <- <-; eexists; repeat split; reflexivity|]). destruct I.
Qed.
Lemma rows_methods2 : forall j r, nth_error unix_args j = Some r -> is_hash r = true -> exists t, token r = Some (lit t) /\ In (t, j) methods.
Proof.
  intros j r J H.
  assert (A : forallb (fun j => match nth_error unix_args j with
      | Some r => negb (is_hash r) || existsb (fun m => (snd m =? j)%nat && match token r with Some t => streq t (lit (fst m)) | None => false end) methods | None => true end)
      (seq 0 (length unix_args)) = true) by (vm_compute; reflexivity).
  rewrite forallb_forall in A. assert (Lj : (j < length unix_args)%nat) by (apply nth_error_Some; congruence). specialize (A j (in_range _ _ Lj)). rewrite J, H in A. cbn [negb orb] in A.
  apply existsb_exists in A. destruct A as ([t x] & I & E). cbn [fst snd] in E. apply andb_prop in E. destruct E as [E1 E2]. apply Nat.eqb_eq in E1. subst x.
  destruct (token r) as [u|]; [|discriminate]. apply streq_eq in E2. subst u. exists t. auto.
Qed.
Lemma method_of_row : forall a, method_of a = match find_row (names_option a) 0 unix_args with Some (j, r) => if is_hash r then Some j else None | None => None end.
Proof.
  intro a. unfold method_of. destruct (find _ methods) as [[t x]|] eqn:F; cbn [option_map snd].
  - apply find_some in F. destruct F as [I P]. cbn [fst] in P. destruct (methods_rows _ _ I) as (r & X & T & H). rewrite (find_named _ _ _ _ X T P), H. reflexivity.
  - destruct (find_row (names_option a) 0 unix_args) as [[j r]|] eqn:E; [|reflexivity]. destruct (is_hash r) eqn:H; [|reflexivity].
    apply find_is_named in E. destruct E as (J & u & T & P). destruct (rows_methods2 _ _ J H) as (t & T' & I).
    pose proof (find_none _ _ F _ I) as X. cbn [fst] in X. congruence.
Qed.

Lemma valued_not_hash : forall j r, nth_error unix_args j = Some r -> is_hash r = true -> valued j = false.
Proof.
  intros j r J H. assert (A : forallb (fun j => match nth_error unix_args j with Some r => negb (is_hash r) || negb (valued j) | None => true end) (seq 0 (length unix_args)) = true)
    by (vm_compute; reflexivity).
  rewrite forallb_forall in A. assert (Lj : (j < length unix_args)%nat) by (apply nth_error_Some; congruence). specialize (A j (in_range _ _ Lj)). rewrite J, H in A. cbn in A.
  apply negb_true_iff. exact A.
Qed.

Lemma one_arg_method : forall a c v m, is_method c m -> is_method (fst (one_arg a (c, v))) (match method_of a with Some j => Some j | None => m end).
Proof.
  intros a c v m M. rewrite method_of_row. pose proof (one_arg_ctrl a c v) as H.
  destruct (find_row (names_option a) 0 unix_args) as [[j r]|] eqn:E.
  - pose proof (find_is_named _ _ _ E) as (J & t & T & P). destruct (is_hash r) eqn:Hh.
    + rewrite (one_arg_plain a c v _ _ E (valued_not_hash _ _ J Hh)). cbn [fst]. pose proof (apply_method _ _ _ c m J T M) as X. rewrite Hh in X. exact X.
    + destruct H as [->|(j' & r' & E' & ->)]; [exact M|]. injection E' as <- <-. pose proof (apply_method _ _ _ c m J T M) as X. rewrite Hh in X. exact X.
  - destruct H as [->|(j' & r' & E' & _)]; [exact M|discriminate].
Qed.
Lemma args_method : forall argv c v m, is_method c m ->
  is_method (fst (fold_left (fun s a => one_arg a s) argv (c, v))) (match last_method argv with Some j => Some j | None => m end).
Proof.
  induction argv as [|a argv IH]; intros c v m M; [exact M|]. cbn [fold_left last_method].
  pose proof (one_arg_method a c v m M) as S. destruct (one_arg a (c, v)) as [c1 v1]. cbn [fst] in S. specialize (IH c1 v1 _ S).
  destruct (last_method argv); [exact IH|]. destruct (method_of a); exact IH.
Qed.

Lemma preset_method : forall val c, is_method c None -> is_method (preset val c) (defs_method val).
Proof.
  intros [val|] c M; [|exact M]. unfold preset, defs_method. rewrite method_of_row.
  assert (LT : forall j r t, nth_error unix_args j = Some r -> token r = Some t -> map tolower t = t).
  { intros j r t J T. assert (A : forallb (fun r => match token r with Some t => streq (map tolower t) t | None => true end) unix_args = true) by (vm_compute; reflexivity).
    rewrite forallb_forall in A. specialize (A r (nth_error_In _ _ J)). rewrite T in A. apply streq_eq in A. exact A. }
  destruct (find_row (names_method val) 0 unix_args) as [[j r]|] eqn:E.
  - apply find_row_some in E. destruct E as (_ & J & P). rewrite Nat.sub_0_r in J. unfold names_method in P. destruct (token r) as [t|] eqn:T; [|discriminate].
    apply andb_prop in P. destruct P as [Hh P]. rewrite (LT _ _ _ J T) in P. rewrite (find_named _ _ _ _ J T P), Hh.
    pose proof (apply_method _ _ _ c None J T M) as X. rewrite Hh in X. exact X.
  - destruct (find_row (names_option (map tolower val)) 0 unix_args) as [[j r]|] eqn:F; [|exact M]. destruct (is_hash r) eqn:Hh; [|exact M].
    apply find_is_named in F. destruct F as (J & t & T & P). pose proof (find_row_none _ _ _ E r (nth_error_In _ _ J)) as X. unfold names_method in X.
    rewrite T, Hh, (LT _ _ _ J T), P in X. discriminate.
Qed.

(** * The pointers *)
(** The number options keep NULL pointers NULL, and the flag for rounds is not set without a place for the number. *)
Lemma one_arg_rounds : forall a c v, v_rounds v = None -> N.testbit c 24 = false ->
  v_rounds (snd (one_arg a (c, v))) = None /\ N.testbit (fst (one_arg a (c, v))) 24 = false.
Proof.
  intros a c v V B. pose proof (one_arg_ctrl a c v) as H. unfold one_arg in *. destruct (find_row (names_option a) 0 unix_args) as [[j r]|] eqn:E; [|split; assumption].
  pose proof (find_is_named _ _ _ E) as (J & t & T & P).
  assert (R : j <> ROUNDS -> N.testbit (apply_row r c) 24 = false).
  { intro D. assert (O : own_bit ROUNDS 24 = true) by (vm_compute; reflexivity). destruct (own_bit_use _ _ _ _ _ O J T D) as [X Y]. rewrite apply_row_bit, X, Y, B. reflexivity. }
  destruct (j =? REMEMBER)%nat eqn:E1.
  { apply Nat.eqb_eq in E1. assert (D : j <> ROUNDS) by (subst; discriminate). destruct (v_remember v); [|split; assumption]. destruct (strtoi _ _) as [n ok].
    destruct ok; cbn [fst snd v_rounds]; auto. }
  destruct (j =? MIN_PASS_LEN)%nat eqn:E2.
  { apply Nat.eqb_eq in E2. assert (D : j <> ROUNDS) by (subst; discriminate). destruct (v_minlen v); [|split; assumption]. destruct (strtoi _ _) as [n ok].
    destruct ok; cbn [fst snd v_rounds]; auto. }
  destruct (j =? ROUNDS)%nat eqn:E3; [rewrite V; split; assumption|]. apply Nat.eqb_neq in E3. cbn [fst snd]. auto.
Qed.
Lemma args_rounds : forall argv c v, v_rounds v = None -> N.testbit c 24 = false ->
  let s := fold_left (fun s a => one_arg a s) argv (c, v) in v_rounds (snd s) = None /\ N.testbit (fst s) 24 = false.
Proof.
  induction argv as [|a argv IH]; intros c v V B; [split; assumption|]. cbn [fold_left]. pose proof (one_arg_rounds a c v V B) as [V1 B1].
  destruct (one_arg a (c, v)) as [c1 v1]. apply IH; assumption.
Qed.
Definition same_pointers (v v' : vals) : Prop :=
  (v_remember v = None <-> v_remember v' = None) /\ (v_rounds v = None <-> v_rounds v' = None) /\ (v_minlen v = None <-> v_minlen v' = None).

Lemma on_rounds : forall c, on ROUNDS c = N.testbit c 24.
Proof. intro c. apply on_testbit. reflexivity. Qed.
Lemma bits_before : forall b root flags defs, In b ([3; 4; 5; 6; 11; 12; 14; 15; 16; 18; 19; 20; 21; 24; 28; 31]%N) ->
  N.testbit (preset (defs (lit "ENCRYPT_METHOD"%string)) (manual_flags root flags)) b = false.
Proof.
  intros b root flags defs I. rewrite preset_bit.
  - apply manual_bit. apply in_or_app. left. cbn [In] in I |- *. tauto.
  - assert (H : forallb hash_rows_only [3; 4; 5; 6; 11; 12; 14; 15; 16; 18; 19; 20; 21; 24; 28; 31]%N = true) by (vm_compute; reflexivity).
    rewrite forallb_forall in H. apply H. exact I.
Qed.

(** * Theorems *)

(** No argument list, no login.defs and no flags make _set_ctrl read through a NULL pointer. *)
Theorem options_defined : forall root flags defs v argv, exists c v', set_ctrl root flags defs v argv = Ok (c, v').
Proof.
  intros. unfold set_ctrl. fold (args root flags defs v argv).
  assert (R : v_rounds v = None -> v_rounds (snd (args root flags defs v argv)) = None /\ N.testbit (fst (args root flags defs v argv)) 24 = false).
  { intro V. apply args_rounds; [exact V|]. apply bits_before. cbn [In]. tauto. }
  assert (Q : v_rounds v <> None -> v_rounds (snd (args root flags defs v argv)) <> None).
  { intro V. unfold args. generalize (preset (defs (lit "ENCRYPT_METHOD")) (manual_flags root flags)) as c. clear R. revert v V. induction argv as [|a argv IH]; intros v V c; [exact V|].
    cbn [fold_left]. destruct (one_arg a (c, v)) as [c1 v1] eqn:E. apply IH. revert E. unfold one_arg.
    destruct (find_row (names_option a) 0 unix_args) as [[j r]|]; [|intro E; injection E as _ <-; exact V].
    destruct (j =? REMEMBER)%nat. { destruct (v_remember v); [|intro E; injection E as _ <-; exact V]. destruct (strtoi _ _) as [n ok]. destruct ok; intro E; injection E as _ <-; exact V. }
    destruct (j =? MIN_PASS_LEN)%nat. { destruct (v_minlen v); [|intro E; injection E as _ <-; exact V]. destruct (strtoi _ _) as [n ok]. intro E; injection E as _ <-; exact V. }
    destruct (j =? ROUNDS)%nat. { destruct (v_rounds v); [|contradiction V; reflexivity]. destruct (strtoi _ _) as [n ok]. intro E; injection E as _ <-. discriminate. }
    intro E; injection E as _ <-; exact V. }
  destruct (args root flags defs v argv) as [c1 v1]. cbn [fst snd] in *.
  assert (A : v_rounds (snd (after_args flags (c1, v1))) = v_rounds v1).
  { unfold after_args. cbn [snd]. destruct (v_minlen v1); [|reflexivity]. destruct (des_crypt c1 && (8 <? z)); reflexivity. }
  assert (A2 : N.testbit (fst (after_args flags (c1, v1))) 24 = N.testbit c1 24) by (apply after_bit; [reflexivity|discriminate]).
  destruct (after_args flags (c1, v1)) as [c2 v2]. cbn [fst snd] in A, A2.
  destruct (v_rounds v) as [n0|] eqn:V0.
  - assert (V2 : v_rounds v2 <> None) by (rewrite A; apply Q; discriminate). clear R Q.
    assert (V3 : v_rounds (snd (rounds_from_defs defs (c2, v2))) <> None).
    { unfold rounds_from_defs. destruct (v_rounds v2) eqn:V2'; [|contradiction]. destruct (off ROUNDS c2); [|cbn [snd]; rewrite V2'; discriminate].
      match goal with |- context [match ?k with Some _ => _ | None => _ end] => destruct k as [key|] end; [|cbn [snd]; rewrite V2'; discriminate].
      destruct (defs key) as [val|]; [|cbn [snd]; rewrite V2'; discriminate]. destruct (strtoi val 0) as [n ok]. destruct ok; discriminate. }
    destruct (rounds_from_defs defs (c2, v2)) as [c3 v3]. cbn [snd] in V3.
    assert (V4 : v_rounds (snd (default_rounds (c3, v3))) <> None).
    { unfold default_rounds. destruct (v_rounds v3) eqn:V3'; [|contradiction]. match goal with |- context [if ?b then _ else _] => destruct b end; cbn [snd]; [discriminate|rewrite V3'; discriminate]. }
    destruct (default_rounds (c3, v3)) as [c4 v4]. cbn [snd] in V4. unfold sane_rounds. destruct (v_rounds v4) as [n|]; [|contradiction].
    destruct (on ROUNDS c4); [|cbn [bind]; eauto]. destruct (on GOST_YESCRYPT c4 || on YESCRYPT c4); [cbn [bind]; eauto|].
    destruct (on BLOWFISH_PASS c4); [cbn [bind]; eauto|]. destruct (on SHA256_PASS c4 || on SHA512_PASS c4); [|cbn [bind]; eauto].
    destruct ((n <? 1000) || (n =? INT_MAX)); [cbn [bind]; eauto|]. destruct (10000000 <=? n); cbn [bind]; eauto.
  - destruct (R eq_refl) as [R1 R2]. assert (E1 : rounds_from_defs defs (c2, v2) = (c2, v2)) by (unfold rounds_from_defs; rewrite A, R1; reflexivity).
    assert (E2 : default_rounds (c2, v2) = (c2, v2)) by (unfold default_rounds; rewrite A, R1; reflexivity).
    rewrite E1, E2. unfold sane_rounds. rewrite on_rounds, A2, R2. cbn [bind]. eauto.
Qed.

Example options_example : set_ctrl false 0 (fun _ => None) (mkVals (Some (-1)) (Some 0) (Some 0))
   [lit "obscure"; lit "nullok"; lit "minlen=12"; lit "sha512"; lit "rounds=65536"; lit "remember=9999"] =
   Ok (N.lor (flag_of SHA512_PASS) (N.lor (flag_of ROUNDS) (flag_of REMEMBER)), mkVals (Some 400) (Some 65536) (Some 12)).
Proof. vm_compute. reflexivity. Qed.

Lemma simple_rows : forall t x, In (t, x) simple -> exists r, nth_error unix_args x = Some r /\ token r = Some (lit t) /\ flag_of x = N.shiftl 1 (bitno x) /\
  own_bit x (bitno x) = true /\ valued x = false /\ N.testbit (cflag r) (bitno x) = true /\
  In (bitno x) [3; 4; 5; 6; 11; 12; 14; 15; 16; 18; 19; 20; 21; 24; 28; 31]%N /\ bitno x <> 9%N /\ bitno x <> 24%N /\ bitno x <> 14%N.
Proof.
  intros t x I. cbn [simple In] in I.
  repeat (destruct I as [I|I]; [injection I as <- <-; eexists; split; [reflexivity|]; split; [reflexivity|]; split; [vm_compute; reflexivity|]; split; [vm_compute; reflexivity|];
    split; [reflexivity|]; split; [vm_compute; reflexivity|]; split; [vm_compute; tauto|]; vm_compute; repeat split; discriminate|]). destruct I.
Qed.

(** A simple option is in force exactly when an argument starting with its name is given; nothing else turns it on or off. *)
Theorem simple_options : forall t x, In (t, x) simple -> forall root flags defs v argv c v', set_ctrl root flags defs v argv = Ok (c, v') ->
  (on x c = true <-> given t argv).
Proof.
  intros t x I root flags defs v argv c v' H. destruct (simple_rows _ _ I) as (r & X & T & F & O & V & FB & B & D1 & D2 & D3).
  rewrite (on_bit x c F). assert (L : (bitno x < 64)%N) by (cbn [In] in B; lia). rewrite (set_ctrl_bit _ _ _ _ _ _ _ _ H L D1 D2 D3).
  unfold args. rewrite (args_bit x _ r X O V), FB, (bits_before _ _ _ _ B). rewrite <- (matches_given t x r argv X T). destruct (existsb (matches x) argv); split; intro Z0; congruence.
Qed.

Example simple_options_example : match set_ctrl true 0 (fun _ => None) (mkVals None None None) [lit "likeauth"; lit "bogus"; lit "shadowed"; lit "sha256"; lit "md5"] with
  | Ok (c, _) => on LIKE_AUTH c = true /\ on SHADOW c = true /\ on NIS c = false /\ on MD5_PASS c = true /\ on SHA256_PASS c = false
  | _ => False end.
Proof. vm_compute. repeat split; reflexivity. Qed.

(** Debug output: asked for itself or with audit. *)
Theorem debug_option : forall root flags defs v argv c v', set_ctrl root flags defs v argv = Ok (c, v') ->
  (on DEBUG c = true <-> given "debug" argv \/ given "audit" argv).
Proof.
  intros root flags defs v argv c v' H. pose proof H as H0. unfold set_ctrl in H. fold (args root flags defs v argv) in H.
  destruct (sane_rounds _) as [[c1 v1]| |] eqn:E; cbn [bind] in H; try discriminate. injection H as <- <-.
  assert (A : on AUDIT c1 = true <-> given "audit" argv).
  { rewrite <- (simple_options "audit" AUDIT (or_introl eq_refl) _ _ _ _ _ _ _ H0). destruct (on AUDIT c1) eqn:X; [|rewrite X; reflexivity].
    split; [intros _|reflexivity]. rewrite (on_testbit AUDIT 3%N) in X |- * by reflexivity. rewrite set_bit, X. vm_compute. reflexivity. }
  assert (Dg : on DEBUG c1 = true <-> given "debug" argv).
  { rewrite (on_testbit DEBUG 14%N) by reflexivity. rewrite (tail_bit _ _ _ _ 14%N ltac:(reflexivity) ltac:(discriminate) E). rewrite after_bit by (try reflexivity; discriminate).
    unfold args. assert (O : own_bit DEBUG 14 = true) by (vm_compute; reflexivity). edestruct (nth_error unix_args DEBUG) as [r|] eqn:R; [|discriminate].
    rewrite (args_bit DEBUG 14%N r R O ltac:(reflexivity)). rewrite (bits_before 14%N) by (cbn [In]; tauto). injection R as <-. rewrite <- (matches_given "debug" DEBUG _ argv eq_refl eq_refl).
    destruct (existsb (matches DEBUG) argv); vm_compute; split; congruence. }
  destruct (on AUDIT c1).
  - split; [intros _; right; apply A; reflexivity|intros _]. rewrite (on_testbit DEBUG 14%N) by reflexivity. rewrite set_bit. rewrite orb_true_iff. right. vm_compute. reflexivity.
  - rewrite Dg. split; [auto|]. intros [X|X]; [exact X|]. apply A in X. discriminate.
Qed.

(** Empty passwords are refused unless nullok is given and the application did not forbid them. *)
Theorem nullok_option : forall root flags defs v argv c v', set_ctrl root flags defs v argv = Ok (c, v') ->
  (off NONULL c = true <-> given "nullok" argv /\ N.testbit flags 0 = false).
Proof.
  intros root flags defs v argv c v' H. unfold set_ctrl in H. fold (args root flags defs v argv) in H.
  destruct (sane_rounds _) as [[c1 v1]| |] eqn:E; cbn [bind] in H; try discriminate. injection H as <- <-.
  assert (T : N.testbit (if on AUDIT c1 then set DEBUG c1 else c1) 9 = N.testbit c1 9).
  { destruct (on AUDIT c1); [|reflexivity]. rewrite set_bit. replace (N.testbit (mask_of DEBUG) 9) with true by (vm_compute; reflexivity). replace (N.testbit (flag_of DEBUG) 9) with false by (vm_compute; reflexivity). rewrite andb_true_r, orb_false_r. reflexivity. }
  rewrite off_eq, (on_testbit NONULL 9%N) by reflexivity. rewrite T, (tail_bit _ _ _ _ 9%N ltac:(reflexivity) ltac:(discriminate) E).
  assert (D : has flags F_DISALLOW_NULL = N.testbit flags 0).
  { unfold has, F_DISALLOW_NULL. change 1%N with (N.ones 1). rewrite N.land_ones. change (2 ^ 1)%N with 2%N. rewrite <- N.bit0_mod. destruct (N.testbit flags 0); reflexivity. }
  assert (A : N.testbit (fst (args root flags defs v argv)) 9 = negb (existsb (matches NULLOK) argv)).
  { unfold args. assert (O : own_bit NULLOK 9 = true) by (vm_compute; reflexivity). edestruct (nth_error unix_args NULLOK) as [r|] eqn:R; [|discriminate].
    rewrite (args_bit NULLOK 9%N r R O ltac:(reflexivity)). rewrite preset_bit by (vm_compute; reflexivity). rewrite manual_nonull. injection R as <-.
    destruct (existsb (matches NULLOK) argv); vm_compute; reflexivity. }
  destruct (args root flags defs v argv) as [c0 v0]. unfold after_args. cbn [fst] in *. rewrite D.
  rewrite <- (matches_given "nullok" NULLOK _ argv eq_refl eq_refl).
  destruct (N.testbit flags 0).
  - rewrite set_bit. replace (N.testbit (flag_of NONULL) 9) with true by (vm_compute; reflexivity). rewrite orb_true_r. split; [discriminate|]. intros [_ X]. discriminate.
  - rewrite A. rewrite negb_involutive. split; [auto|]. tauto.
Qed.

Example nullok_example : forall flags, N.testbit flags 0 = false -> exists c v', set_ctrl false flags (fun _ => None) (mkVals None None None) [lit "nullok"] = Ok (c, v') /\ off NONULL c = true.
Proof.
  intros flags F. destruct (options_defined false flags (fun _ => None) (mkVals None None None) [lit "nullok"]) as (c & v' & H). exists c, v'. split; [exact H|].
  apply (nullok_option _ _ _ _ _ _ _ H). split; [|exact F]. exists (lit "nullok"), []. split; [left; reflexivity|reflexivity].
Qed.

Definition chosen (defs : cstr -> option cstr) (argv : list cstr) : option nat :=
  match last_method argv with Some m => Some m | None => defs_method (defs (lit "ENCRYPT_METHOD")) end.

Lemma method_known : forall a m, method_of a = Some m -> In m flagged \/ m = DES.
Proof.
  intros a m. unfold method_of. destruct (find _ methods) as [[t x]|] eqn:F; [|discriminate]. cbn [option_map snd]. intro E. injection E as <-. apply find_some in F. destruct F as [I _].
  unfold methods in I. cbn [In] in I. unfold flagged. cbn [In]. repeat (destruct I as [I|I]; [injection I as _ <-; tauto|]). destruct I.
Qed.
Lemma last_method_known : forall argv m, last_method argv = Some m -> In m flagged \/ m = DES.
Proof.
  induction argv as [|a l IH]; intros m E; [discriminate|]. cbn [last_method] in E. destruct (last_method l); [injection E as <-; apply IH; reflexivity|exact (method_known _ _ E)].
Qed.

(** The hash method: the last one named in the arguments, else the one of login.defs; never two at once; DES if none or "des". *)
Theorem hash_method : forall root flags defs v argv c v', set_ctrl root flags defs v argv = Ok (c, v') ->
  (forall x, In x flagged -> (on x c = true <-> chosen defs argv = Some x)) /\
  (des_crypt c = true <-> chosen defs argv = None \/ chosen defs argv = Some DES).
Proof.
  intros root flags defs v argv c v' H.
  assert (M : is_method (fst (args root flags defs v argv)) (chosen defs argv)).
  { unfold args, chosen. apply args_method. apply preset_method. intros x I. destruct (flagged_bits x I) as [B F]. rewrite (on_bit x _ F).
    rewrite manual_bit by (apply in_or_app; right; exact B). split; discriminate. }
  assert (P1 : forall x, In x flagged -> (on x c = true <-> chosen defs argv = Some x)).
  { intros x I. destruct (flagged_bits x I) as [B F]. rewrite <- (M x I), !(on_bit x _ F).
    assert (X : (bitno x < 64)%N /\ bitno x <> 9%N /\ bitno x <> 24%N /\ bitno x <> 14%N) by (unfold hash_bits in B; cbn [In] in B; lia).
    destruct X as (L & D1 & D2 & D3). rewrite (set_ctrl_bit _ _ _ _ _ _ _ _ H L D1 D2 D3). reflexivity. }
  split; [exact P1|].
  assert (C : forall m, chosen defs argv = Some m -> In m flagged \/ m = DES).
  { intros m Q. unfold chosen in Q. destruct (last_method argv) as [k|] eqn:E; [injection Q as <-; exact (last_method_known _ _ E)|].
    unfold defs_method in Q. destruct (defs _); [exact (method_known _ _ Q)|discriminate]. }
  unfold des_crypt, off. split.
  - intro A. repeat (apply andb_prop in A; let B := fresh "B" in destruct A as [A B]; apply negb_true_iff in B). apply negb_true_iff in A.
    destruct (chosen defs argv) as [m|] eqn:Q; [|left; reflexivity]. right. destruct (C _ eq_refl) as [I| ->]; [|reflexivity]. exfalso.
    specialize (proj2 (P1 m I) eq_refl). unfold flagged in I. cbn [In] in I. intro Z0. repeat (destruct I as [<-|I]; [congruence|]). destruct I.
  - intro Q. assert (Z0 : forall x, In x flagged -> on x c = false).
    { intros x I. apply not_true. intro Y. apply (P1 x I) in Y. destruct Q as [Q|Q]; rewrite Q in Y; [discriminate|]. injection Y as <-. unfold flagged in I. cbn in I. repeat (destruct I as [I|I]; [discriminate|]). exact I. }
    rewrite !Z0 by (unfold flagged; cbn [In]; tauto). reflexivity.
Qed.

Example hash_method_example : match set_ctrl true 0 (fun k => if streq k (lit "ENCRYPT_METHOD") then Some (lit "YESCRYPT") else None) (mkVals (Some (-1)) (Some 0) (Some 0)) [lit "debug"] with
  | Ok (c, v) => on YESCRYPT c = true /\ des_crypt c = false /\ v_rounds v = Some 5
  | _ => False end.
Proof. vm_compute. repeat split; reflexivity. Qed.

(** use_first_pass and try_first_pass replace each other: the last one given is in force. *)
Fixpoint last_pass (argv : list cstr) : option nat :=
  match argv with
  | [] => None
  | a :: rest => match last_pass rest with
                 | Some m => Some m
                 | None => if is_prefix (lit "use_first_pass") a then Some USE_FIRST_PASS else if is_prefix (lit "try_first_pass") a then Some TRY_FIRST_PASS else None
                 end
  end.
Definition pass_rows : bool :=
  forallb (fun j => match nth_error unix_args j with
    | Some r => match token r with
                | Some _ => if (j =? USE_FIRST_PASS)%nat || (j =? TRY_FIRST_PASS)%nat
                            then negb (N.testbit (cmask r) 4) && negb (N.testbit (cmask r) 5) && Bool.eqb (N.testbit (cflag r) 4) (j =? USE_FIRST_PASS)%nat && Bool.eqb (N.testbit (cflag r) 5) (j =? TRY_FIRST_PASS)%nat
                            else N.testbit (cmask r) 4 && N.testbit (cmask r) 5 && negb (N.testbit (cflag r) 4) && negb (N.testbit (cflag r) 5)
                | None => true end
    | None => true end) (seq 0 (length unix_args)).
Lemma pass_rows_ok : pass_rows = true.
Proof. vm_compute. reflexivity. Qed.
Definition pass_state (c : N) (m : option nat) : Prop :=
  N.testbit c 4 = match m with Some j => (j =? USE_FIRST_PASS)%nat | None => false end /\ N.testbit c 5 = match m with Some j => (j =? TRY_FIRST_PASS)%nat | None => false end.
Lemma one_arg_pass : forall a c v m, pass_state c m ->
  pass_state (fst (one_arg a (c, v))) (if is_prefix (lit "use_first_pass") a then Some USE_FIRST_PASS else if is_prefix (lit "try_first_pass") a then Some TRY_FIRST_PASS else m).
Proof.
  intros a c v m M.
  assert (K : forall j r t, nth_error unix_args j = Some r -> token r = Some t ->
     pass_state (apply_row r c) (if (j =? USE_FIRST_PASS)%nat || (j =? TRY_FIRST_PASS)%nat then Some j else m)).
  { intros j r t J T. pose proof pass_rows_ok as H. unfold pass_rows in H. rewrite forallb_forall in H. assert (Lj : (j < length unix_args)%nat) by (apply nth_error_Some; congruence).
    specialize (H j (in_range _ _ Lj)). rewrite J, T in H. destruct M as [M4 M5]. unfold pass_state. rewrite !apply_row_bit.
    destruct ((j =? USE_FIRST_PASS)%nat || (j =? TRY_FIRST_PASS)%nat); repeat (apply andb_prop in H; let B := fresh "B" in destruct H as [H B]).
    - apply negb_true_iff in H. apply negb_true_iff in B1. apply eqb_prop in B0. apply eqb_prop in B. rewrite H, B1, B0, B, !andb_false_r. split; reflexivity.
    - apply negb_true_iff in B0. apply negb_true_iff in B. rewrite H, B1, B0, B, !andb_true_r, !orb_false_r. split; assumption. }
  destruct (is_prefix (lit "use_first_pass") a) eqn:U.
  { pose proof (find_named USE_FIRST_PASS _ _ a eq_refl eq_refl U) as F. rewrite (one_arg_plain _ c v _ _ F eq_refl). apply (K USE_FIRST_PASS _ _ eq_refl eq_refl). }
  destruct (is_prefix (lit "try_first_pass") a) eqn:Y.
  { pose proof (find_named TRY_FIRST_PASS _ _ a eq_refl eq_refl Y) as F. rewrite (one_arg_plain _ c v _ _ F eq_refl). apply (K TRY_FIRST_PASS _ _ eq_refl eq_refl). }
  destruct (one_arg_ctrl a c v) as [->|(j & r & F & ->)]; [exact M|]. apply find_is_named in F. destruct F as (J & t & T & P).
  specialize (K j r t J T). destruct (j =? USE_FIRST_PASS)%nat eqn:E1.
  { apply Nat.eqb_eq in E1. subst j. injection J as <-. change (Some (lit "use_first_pass") = Some t) in T. inversion T as [T']. rewrite <- T' in P. congruence. }
  destruct (j =? TRY_FIRST_PASS)%nat eqn:E2.
  { apply Nat.eqb_eq in E2. subst j. injection J as <-. change (Some (lit "try_first_pass") = Some t) in T. inversion T as [T']. rewrite <- T' in P. congruence. }
  exact K.
Qed.
Lemma args_pass : forall argv c v m, pass_state c m ->
  pass_state (fst (fold_left (fun s a => one_arg a s) argv (c, v))) (match last_pass argv with Some j => Some j | None => m end).
Proof.
  induction argv as [|a argv IH]; intros c v m M; [exact M|]. cbn [fold_left last_pass]. pose proof (one_arg_pass a c v m M) as S.
  destruct (one_arg a (c, v)) as [c1 v1]. cbn [fst] in S. specialize (IH c1 v1 _ S). destruct (last_pass argv); [exact IH|].
  destruct (is_prefix _ a); [exact IH|]. destruct (is_prefix _ a); exact IH.
Qed.
Theorem first_pass_options : forall root flags defs v argv c v', set_ctrl root flags defs v argv = Ok (c, v') ->
  (on USE_FIRST_PASS c = true <-> last_pass argv = Some USE_FIRST_PASS) /\ (on TRY_FIRST_PASS c = true <-> last_pass argv = Some TRY_FIRST_PASS).
Proof.
  intros root flags defs v argv c v' H.
  assert (M : pass_state (fst (args root flags defs v argv)) (last_pass argv)).
  { unfold args. assert (S0 : pass_state (preset (defs (lit "ENCRYPT_METHOD")) (manual_flags root flags)) None) by (split; apply bits_before; cbn [In]; tauto).
    pose proof (args_pass argv _ v None S0) as X. destruct (last_pass argv); exact X. }
  rewrite (on_testbit USE_FIRST_PASS 4%N), (on_testbit TRY_FIRST_PASS 5%N) by reflexivity.
  rewrite (set_ctrl_bit _ _ _ _ _ _ _ 4%N H), (set_ctrl_bit _ _ _ _ _ _ _ 5%N H) by (try reflexivity; discriminate).
  destruct M as [-> ->]. destruct (last_pass argv) as [m|]; [|split; split; discriminate].
  rewrite !Nat.eqb_eq. split; split; congruence.
Qed.
Example first_pass_example : last_pass [lit "use_first_pass"; lit "debug"; lit "try_first_pass"] = Some TRY_FIRST_PASS.
Proof. reflexivity. Qed.

(** What the module is asked to do depends on the flags and the caller alone. *)
Theorem phase_flags : forall root flags defs v argv c v', set_ctrl root flags defs v argv = Ok (c, v') ->
  on PRELIM c = has flags F_PRELIM /\ on UPDATE c = has flags F_UPDATE && negb (has flags F_PRELIM) /\
  on IAMROOT c = root && negb (has flags F_CHANGE_EXPIRED) /\ on EXPIRED_ONLY c = has flags F_CHANGE_EXPIRED /\ on QUIET_ c = has flags F_SILENT.
Proof.
  intros root flags defs v argv c v' H.
  assert (G : forall x b, In (x, b) [(PRELIM, 7); (UPDATE, 8); (IAMROOT, 2); (EXPIRED_ONLY, 32); (QUIET_, 10)]%N -> on x c = N.testbit (manual_flags root flags) b).
  { intros x b I.
    assert (K : forallb (fun p => N.eqb (flag_of (fst p)) (N.shiftl 1 (snd p)) && hash_rows_only (snd p) && own_bit UNIX_CTRLS (snd p) && (snd p <? 64)%N &&
       negb (snd p =? 9)%N && negb (snd p =? 24)%N && negb (snd p =? 14)%N) [(PRELIM, 7); (UPDATE, 8); (IAMROOT, 2); (EXPIRED_ONLY, 32); (QUIET_, 10)]%N = true) by (vm_compute; reflexivity).
    rewrite forallb_forall in K. specialize (K _ I). cbn [fst snd] in K. repeat (apply andb_prop in K; let B := fresh "B" in destruct K as [K B]).
    apply N.eqb_eq in K. apply N.ltb_lt in B2. apply negb_true_iff in B1. apply negb_true_iff in B0. apply negb_true_iff in B.
    apply N.eqb_neq in B1. apply N.eqb_neq in B0. apply N.eqb_neq in B.
    rewrite (on_testbit x b c K), (set_ctrl_bit _ _ _ _ _ _ _ _ H B2 B1 B0 B). unfold args.
    rewrite <- (preset_bit b B4 (defs (lit "ENCRYPT_METHOD")) (manual_flags root flags)). generalize (preset (defs (lit "ENCRYPT_METHOD")) (manual_flags root flags)) as c0. clear H. revert v.
    induction argv as [|a argv IH]; intros v c0; [reflexivity|]. cbn [fold_left]. destruct (one_arg a (c0, v)) as [c1 v1] eqn:E. rewrite IH.
    pose proof (one_arg_ctrl a c0 v) as X. rewrite E in X. cbn [fst] in X. destruct X as [->|(j & q & F & ->)]; [reflexivity|]. apply find_is_named in F. destruct F as (J & t & T & P).
    assert (D : j <> UNIX_CTRLS) by (intros ->; discriminate). destruct (own_bit_use _ _ _ _ _ B3 J T D) as [Y Z0]. rewrite apply_row_bit, Y, Z0, andb_true_r, orb_false_r. reflexivity. }
  rewrite (G PRELIM 7%N), (G UPDATE 8%N), (G IAMROOT 2%N), (G EXPIRED_ONLY 32%N), (G QUIET_ 10%N) by (cbn [In]; tauto). unfold manual_flags.
  destruct root, (has flags F_CHANGE_EXPIRED), (has flags F_UPDATE), (has flags F_PRELIM), (has flags F_SILENT); vm_compute; repeat split; reflexivity.
Qed.
Example phase_example : match set_ctrl true 0xa000 (fun _ => None) (mkVals None None None) [] with Ok (c, _) => on UPDATE c = true /\ on QUIET_ c = true /\ on IAMROOT c = true | _ => False end.
Proof. vm_compute. repeat split. Qed.

Ltac in_flagged := unfold flagged; cbn [In]; repeat (first [left; reflexivity | right]).
(** The cost of the hash stays within what the method takes. *)
Theorem rounds_sane : forall root flags defs v argv c v', set_ctrl root flags defs v argv = Ok (c, v') -> on ROUNDS c = true ->
  exists n, v_rounds v' = Some n /\
    (chosen defs argv = Some YESCRYPT \/ chosen defs argv = Some GOST_YESCRYPT -> 3 <= n <= 11) /\
    (chosen defs argv = Some BLOWFISH_PASS -> 4 <= n <= 31) /\
    (chosen defs argv = Some SHA256_PASS \/ chosen defs argv = Some SHA512_PASS -> 1000 <= n <= 9999999).
Proof.
  intros root flags defs v argv c v' H R.
  destruct (hash_method _ _ _ _ _ _ _ H) as [HM _].
  pose proof (HM YESCRYPT ltac:(in_flagged)) as HY. pose proof (HM GOST_YESCRYPT ltac:(in_flagged)) as HG.
  pose proof (HM BLOWFISH_PASS ltac:(in_flagged)) as HB. pose proof (HM SHA256_PASS ltac:(in_flagged)) as H2.
  pose proof (HM SHA512_PASS ltac:(in_flagged)) as H5.
  pose proof (args_rounds argv (preset (defs (lit "ENCRYPT_METHOD")) (manual_flags root flags)) v) as AR. fold (args root flags defs v argv) in AR.
  unfold set_ctrl in H. fold (args root flags defs v argv) in H.
  destruct (sane_rounds _) as [[c1 v1]| |] eqn:E; cbn [bind] in H; try discriminate. injection H as <- <-.
  assert (SD : forall x b, flag_of x = N.shiftl 1 b -> (b < 64)%N -> b <> 14%N -> on x (if on AUDIT c1 then set DEBUG c1 else c1) = on x c1).
  { intros x b F L D. rewrite !(on_testbit x b) by exact F. destruct (on AUDIT c1); [|reflexivity]. rewrite set_bit. change (flag_of DEBUG) with (2 ^ 14)%N.
    change (mask_of DEBUG) with (N.ones 64). rewrite N.pow2_bits_false by congruence. rewrite N.ones_spec_low by exact L. rewrite andb_true_r, orb_false_r. reflexivity. }
  rewrite (SD ROUNDS 24%N) in R by (try reflexivity; discriminate). rewrite (SD YESCRYPT 30%N) in HY by (try reflexivity; discriminate). rewrite (SD GOST_YESCRYPT 29%N) in HG by (try reflexivity; discriminate).
  rewrite (SD BLOWFISH_PASS 25%N) in HB by (try reflexivity; discriminate). rewrite (SD SHA256_PASS 22%N) in H2 by (try reflexivity; discriminate). rewrite (SD SHA512_PASS 23%N) in H5 by (try reflexivity; discriminate).
  remember (default_rounds (rounds_from_defs defs (after_args flags (args root flags defs v argv)))) as s eqn:Es.
  assert (RN : forall c2 v2, s = (c2, v2) -> on ROUNDS c2 = true -> v_rounds v2 <> None).
  { intros c2 v2 Q O N0. rewrite Q in Es.
    assert (V : v_rounds v = None).
    { destruct (v_rounds v) as [n0|] eqn:V0; [|reflexivity]. exfalso.
      destruct (options_defined root flags defs v argv) as (cz & vz & W). unfold set_ctrl in W. fold (args root flags defs v argv) in W. rewrite <- Es in W.
      rewrite Q in E. unfold sane_rounds in E. rewrite O, N0 in E.
      destruct (on GOST_YESCRYPT c2 || on YESCRYPT c2); [discriminate|]. destruct (on BLOWFISH_PASS c2); [discriminate|]. destruct (on SHA256_PASS c2 || on SHA512_PASS c2); [discriminate|].
      clear W E R HY HG HB H2 H5 HM SD AR.
      assert (G : v_rounds (snd (args root flags defs v argv)) <> None).
      { unfold args. generalize (preset (defs (lit "ENCRYPT_METHOD")) (manual_flags root flags)) as cc. assert (V : v_rounds v <> None) by congruence. clear V0 Es. revert v V. induction argv as [|a l IH]; intros v V cc; [exact V|].
        cbn [fold_left]. destruct (one_arg a (cc, v)) as [ca va] eqn:Ea. apply IH. revert Ea. unfold one_arg.
        destruct (find_row (names_option a) 0 unix_args) as [[j r]|]; [|intro Ea; injection Ea as _ <-; exact V].
        destruct (j =? REMEMBER)%nat. { destruct (v_remember v); [|intro Ea; injection Ea as _ <-; exact V]. destruct (strtoi _ _) as [n ok]. destruct ok; intro Ea; injection Ea as _ <-; exact V. }
        destruct (j =? MIN_PASS_LEN)%nat. { destruct (v_minlen v); [|intro Ea; injection Ea as _ <-; exact V]. destruct (strtoi _ _) as [n ok]. intro Ea; injection Ea as _ <-; exact V. }
        destruct (j =? ROUNDS)%nat. { destruct (v_rounds v); [|contradiction V; reflexivity]. destruct (strtoi _ _) as [n ok]. intro Ea; injection Ea as _ <-. discriminate. }
        intro Ea; injection Ea as _ <-; exact V. }
      destruct (args root flags defs v argv) as [ca va]. cbn [snd] in G.
      assert (G2 : v_rounds (snd (after_args flags (ca, va))) <> None).
      { unfold after_args. cbn [snd]. destruct (v_minlen va); [|exact G]. destruct (des_crypt ca && (8 <? z)); exact G. }
      destruct (after_args flags (ca, va)) as [cb vb]. cbn [snd] in G2.
      assert (G3 : v_rounds (snd (rounds_from_defs defs (cb, vb))) <> None).
      { unfold rounds_from_defs. destruct (v_rounds vb) eqn:V2'; [|contradiction]. destruct (off ROUNDS cb); [|cbn [snd]; rewrite V2'; discriminate].
        match goal with |- context [match ?k with Some _ => _ | None => _ end] => destruct k as [key|] end; [|cbn [snd]; rewrite V2'; discriminate].
        destruct (defs key) as [val|]; [|cbn [snd]; rewrite V2'; discriminate]. destruct (strtoi val 0) as [n ok]. destruct ok; discriminate. }
      destruct (rounds_from_defs defs (cb, vb)) as [cd vd]. cbn [snd] in G3.
      assert (G4 : v_rounds (snd (default_rounds (cd, vd))) <> None).
      { unfold default_rounds. destruct (v_rounds vd) eqn:V3'; [|contradiction]. match goal with |- context [if ?b then _ else _] => destruct b end; cbn [snd]; [discriminate|rewrite V3'; discriminate]. }
      rewrite <- Es in G4. exact (G4 N0). }
    destruct (AR V (bits_before 24%N root flags defs ltac:(in_flagged))) as [A1 A2].
    destruct (args root flags defs v argv) as [ca va]. cbn [fst snd] in *.
    assert (G2 : v_rounds (snd (after_args flags (ca, va))) = None).
    { unfold after_args. cbn [snd]. destruct (v_minlen va); [|exact A1]. destruct (des_crypt ca && (8 <? z)); exact A1. }
    assert (G2' : N.testbit (fst (after_args flags (ca, va))) 24 = N.testbit ca 24) by (apply after_bit; [reflexivity|discriminate]).
    destruct (after_args flags (ca, va)) as [cb vb]. cbn [fst snd] in *. unfold rounds_from_defs in Es. rewrite G2 in Es. unfold default_rounds in Es. rewrite G2 in Es.
    injection Es as -> ->. rewrite on_rounds in O. congruence. }
  destruct s as [c2 v2]. specialize (RN c2 v2 eq_refl). revert E. unfold sane_rounds. destruct (on ROUNDS c2) eqn:O2.
  2:{ intro E. injection E as <- <-. congruence. }
  specialize (RN eq_refl). destruct (v_rounds v2) as [n|] eqn:V2; [|contradiction]. clear RN.
  destruct (on GOST_YESCRYPT c2 || on YESCRYPT c2) eqn:Gy.
  { intro E. injection E as <- <-. eexists. split; [reflexivity|]. split; [intros _; destruct (n <? 3) eqn:X; [lia|]; destruct (11 <? n) eqn:Y; lia|].
    apply orb_prop in Gy. split; intro Q; exfalso; destruct Gy as [Gy|Gy]; [apply HG in Gy|apply HY in Gy|apply HG in Gy|apply HY in Gy]; try (destruct Q as [Q|Q]); rewrite Q in Gy; discriminate. }
  apply orb_false_elim in Gy. destruct Gy as [Gy1 Gy2].
  destruct (on BLOWFISH_PASS c2) eqn:Bl.
  { intro E. injection E as <- <-. eexists. split; [reflexivity|]. apply HB in Bl.
    split; [intro Q; exfalso; destruct Q as [Q|Q]; rewrite Q in Bl; discriminate|]. split; [intros _; destruct (n <? 4) eqn:X; [lia|]; destruct (31 <? n) eqn:Y; lia|].
    intro Q; exfalso; destruct Q as [Q|Q]; rewrite Q in Bl; discriminate. }
  destruct (on SHA256_PASS c2 || on SHA512_PASS c2) eqn:Sh.
  { destruct ((n <? 1000) || (n =? INT_MAX)) eqn:Lo.
    - intro E. injection E as <- <-. exfalso. revert R. rewrite on_rounds, unset_bit. change (flag_of ROUNDS) with (2 ^ 24)%N. rewrite N.lxor_spec, N.pow2_bits_true.
      replace (N.testbit ALL_ON 24) with true by reflexivity. rewrite andb_false_r. discriminate.
    - apply orb_false_elim in Lo. destruct Lo as [Lo1 Lo2].
      assert (Fin : forall k, 1000 <= k <= 9999999 -> v_rounds v1 = Some k -> c1 = c2 ->  exists n, v_rounds v1 = Some n /\
        (chosen defs argv = Some YESCRYPT \/ chosen defs argv = Some GOST_YESCRYPT -> 3 <= n <= 11) /\ (chosen defs argv = Some BLOWFISH_PASS -> 4 <= n <= 31) /\
        (chosen defs argv = Some SHA256_PASS \/ chosen defs argv = Some SHA512_PASS -> 1000 <= n <= 9999999)).
      { intros k K Vk ->. exists k. split; [exact Vk|]. apply orb_prop in Sh.
        split; [|split; [|intros _; exact K]]; intro Q; exfalso; destruct Sh as [Sh|Sh]; [apply H2 in Sh|apply H5 in Sh|apply H2 in Sh|apply H5 in Sh]; try (destruct Q as [Q|Q]); rewrite Q in Sh; discriminate. }
      destruct (10000000 <=? n) eqn:Hi; intro E; injection E as E1 E2; subst c1 v1; [apply (Fin 9999999); [lia|reflexivity|reflexivity]|apply (Fin n); [lia|exact V2|reflexivity]]. }
  intro E. injection E as <- <-. apply orb_false_elim in Sh. destruct Sh as [Sh1 Sh2]. exists n. split; [exact V2|].
  split; [intros [Q|Q]; [apply HY in Q|apply HG in Q]; congruence|]. split; [intro Q; apply HB in Q; congruence|]. intros [Q|Q]; [apply H2 in Q|apply H5 in Q]; congruence.
Qed.
Example rounds_example : match set_ctrl true 0 (fun _ => None) (mkVals (Some (-1)) (Some 0) (Some 0)) [lit "blowfish"; lit "rounds=99"] with
  | Ok (c, v) => on ROUNDS c = true /\ v_rounds v = Some 31 | _ => False end.
Proof. vm_compute. repeat split. Qed.

(** Without an argument or a line of login.defs about it the cost of blowfish, yescrypt and gost-yescrypt is 5. *)
Lemma no_rounds_arg : forall a c v, is_prefix (lit "rounds=") a = false -> N.testbit (fst (one_arg a (c, v))) 24 = N.testbit c 24 /\ v_rounds (snd (one_arg a (c, v))) = v_rounds v.
Proof.
  intros a c v NP.
  assert (K : forall j r t, nth_error unix_args j = Some r -> token r = Some t -> j <> ROUNDS -> N.testbit (cmask r) 24 = true /\ N.testbit (cflag r) 24 = false).
  { intros j r t J T D. assert (A : forallb (fun j => (j =? ROUNDS)%nat || match nth_error unix_args j with Some r => match token r with Some _ => N.testbit (cmask r) 24 && negb (N.testbit (cflag r) 24) | None => true end | None => true end) (seq 0 (length unix_args)) = true) by (vm_compute; reflexivity).
    rewrite forallb_forall in A. assert (Lj : (j < length unix_args)%nat) by (apply nth_error_Some; congruence). specialize (A j (in_range _ _ Lj)). rewrite J, T in A. apply Nat.eqb_neq in D. rewrite D in A. cbn [orb] in A.
    apply andb_prop in A. destruct A as [A B]. apply negb_true_iff in B. auto. }
  assert (D : forall j r, find_row (names_option a) 0 unix_args = Some (j, r) -> j <> ROUNDS).
  { intros j r F ->. apply find_is_named in F. destruct F as (J & t & T & Q). injection J as <-. change (Some (lit "rounds=") = Some t) in T. inversion T as [T']. rewrite <- T' in Q. congruence. }
  split.
  - destruct (one_arg_ctrl a c v) as [->|(j & r & F & ->)]; [reflexivity|]. pose proof (D j r F) as Dj. apply find_is_named in F. destruct F as (J & t & T & Q). destruct (K j r t J T Dj) as [K1 K2]. rewrite apply_row_bit, K1, K2, andb_true_r, orb_false_r. reflexivity.
  - unfold one_arg. destruct (find_row (names_option a) 0 unix_args) as [[j r]|] eqn:F; [|reflexivity]. pose proof (D j r eq_refl) as Dj.
    destruct (j =? REMEMBER)%nat. { destruct (v_remember v); [|reflexivity]. destruct (strtoi _ _) as [n ok]. destruct ok; reflexivity. }
    destruct (j =? MIN_PASS_LEN)%nat. { destruct (v_minlen v); [|reflexivity]. destruct (strtoi _ _) as [n ok]. reflexivity. }
    apply Nat.eqb_neq in Dj. rewrite Dj. reflexivity.
Qed.
Theorem rounds_default : forall root flags defs v argv c v' n0, set_ctrl root flags defs v argv = Ok (c, v') -> v_rounds v = Some n0 ->
  (forall a, In a argv -> ~ exists n, a = (lit "rounds=" ++ n)%list) ->
  chosen defs argv = Some BLOWFISH_PASS \/ chosen defs argv = Some GOST_YESCRYPT \/ (chosen defs argv = Some YESCRYPT /\ defs (lit "YESCRYPT_COST_FACTOR") = None) ->
  on ROUNDS c = true /\ v_rounds v' = Some 5.
Proof.
  intros root flags defs v argv c v' n0 H V NR CH. destruct (hash_method _ _ _ _ _ _ _ H) as [HM _].
  pose proof (HM YESCRYPT ltac:(in_flagged)) as HY. pose proof (HM GOST_YESCRYPT ltac:(in_flagged)) as HG. pose proof (HM BLOWFISH_PASS ltac:(in_flagged)) as HB. pose proof (HM SHA256_PASS ltac:(in_flagged)) as H2. pose proof (HM SHA512_PASS ltac:(in_flagged)) as H5.
  unfold set_ctrl in H. fold (args root flags defs v argv) in H. destruct (sane_rounds _) as [[c1 v1]| |] eqn:E; cbn [bind] in H; try discriminate.
  assert (HC : c = (if on AUDIT c1 then set DEBUG c1 else c1)) by congruence. assert (HV : v' = v1) by congruence. clear H. subst v'.
  assert (SD : forall x b, flag_of x = N.shiftl 1 b -> (b < 64)%N -> b <> 14%N -> on x c = on x c1).
  { intros x b F L D. rewrite HC. rewrite !(on_testbit x b) by exact F. destruct (on AUDIT c1); [|reflexivity]. rewrite set_bit. change (flag_of DEBUG) with (2 ^ 14)%N.
    change (mask_of DEBUG) with (N.ones 64). rewrite N.pow2_bits_false by congruence. rewrite N.ones_spec_low by exact L. rewrite andb_true_r, orb_false_r. reflexivity. }
  rewrite (SD ROUNDS 24%N) by (try reflexivity; discriminate). rewrite (SD YESCRYPT 30%N) in HY by (try reflexivity; discriminate). rewrite (SD GOST_YESCRYPT 29%N) in HG by (try reflexivity; discriminate).
  rewrite (SD BLOWFISH_PASS 25%N) in HB by (try reflexivity; discriminate). rewrite (SD SHA256_PASS 22%N) in H2 by (try reflexivity; discriminate). rewrite (SD SHA512_PASS 23%N) in H5 by (try reflexivity; discriminate). clear SD HC HM c.
  assert (A : N.testbit (fst (args root flags defs v argv)) 24 = false /\ v_rounds (snd (args root flags defs v argv)) = Some n0).
  { unfold args. pose proof (bits_before 24%N root flags defs ltac:(in_flagged)) as B. revert V B. generalize (preset (defs (lit "ENCRYPT_METHOD")) (manual_flags root flags)) as cc. clear - NR. revert v.
    induction argv as [|a l IH]; intros v cc V B; [auto|]. cbn [fold_left]. destruct (no_rounds_arg a cc v) as [A1 A2].
    { destruct (is_prefix (lit "rounds=") a) eqn:P; [|reflexivity]. apply is_prefix_spec in P. destruct (NR a (or_introl eq_refl) P). }
    destruct (one_arg a (cc, v)) as [c1 v1]. cbn [fst snd] in *. apply IH; [intros b I; apply NR; right; exact I|congruence|congruence]. }
  destruct (args root flags defs v argv) as [ca va]. cbn [fst snd] in A. destruct A as [A1 A2].
  pose proof (tail_bit defs (after_args flags (ca, va)) c1 v1) as TB.
  assert (G2 : v_rounds (snd (after_args flags (ca, va))) = Some n0).
  { unfold after_args. cbn [snd]. destruct (v_minlen va); [|exact A2]. destruct (des_crypt ca && (8 <? z)); exact A2. }
  assert (G2' : N.testbit (fst (after_args flags (ca, va))) 24 = false) by (rewrite after_bit; [exact A1|reflexivity|discriminate]).
  destruct (after_args flags (ca, va)) as [cb vb]. cbn [fst snd] in *.
  assert (BY : on YESCRYPT cb = on YESCRYPT c1) by (rewrite !(on_testbit YESCRYPT 30%N) by reflexivity; symmetry; apply TB; [reflexivity|discriminate|exact E]).
  assert (BG : on GOST_YESCRYPT cb = on GOST_YESCRYPT c1) by (rewrite !(on_testbit GOST_YESCRYPT 29%N) by reflexivity; symmetry; apply TB; [reflexivity|discriminate|exact E]).
  assert (BB : on BLOWFISH_PASS cb = on BLOWFISH_PASS c1) by (rewrite !(on_testbit BLOWFISH_PASS 25%N) by reflexivity; symmetry; apply TB; [reflexivity|discriminate|exact E]).
  assert (B2 : on SHA256_PASS cb = on SHA256_PASS c1) by (rewrite !(on_testbit SHA256_PASS 22%N) by reflexivity; symmetry; apply TB; [reflexivity|discriminate|exact E]).
  assert (B5 : on SHA512_PASS cb = on SHA512_PASS c1) by (rewrite !(on_testbit SHA512_PASS 23%N) by reflexivity; symmetry; apply TB; [reflexivity|discriminate|exact E]).
  rewrite <- BY in HY. rewrite <- BG in HG. rewrite <- BB in HB. rewrite <- B2 in H2. rewrite <- B5 in H5.
  assert (S2 : on SHA256_PASS cb = false) by (destruct (on SHA256_PASS cb); [|reflexivity]; pose proof (proj1 H2 eq_refl) as X; destruct CH as [Y|[Y|[Y _]]]; rewrite Y in X; discriminate).
  assert (S5 : on SHA512_PASS cb = false) by (destruct (on SHA512_PASS cb); [|reflexivity]; pose proof (proj1 H5 eq_refl) as X; destruct CH as [Y|[Y|[Y _]]]; rewrite Y in X; discriminate).
  assert (OF : off ROUNDS cb = true) by (unfold off; rewrite on_rounds, G2'; reflexivity).
  assert (RD : rounds_from_defs defs (cb, vb) = (cb, vb)).
  { unfold rounds_from_defs. rewrite G2, OF, S2, S5. cbn [orb]. destruct (on YESCRYPT cb) eqn:Y; [|reflexivity]. pose proof (proj1 HY eq_refl) as X. destruct CH as [C|[C|[_ C]]]; [rewrite C in X; discriminate|rewrite C in X; discriminate|]. rewrite C. reflexivity. }
  rewrite RD in E. unfold default_rounds in E. rewrite G2, OF in E.
  assert (SOME : on BLOWFISH_PASS cb || on GOST_YESCRYPT cb || on YESCRYPT cb = true) by (destruct CH as [C|[C|[C _]]]; [apply HB in C|apply HG in C|apply HY in C]; rewrite C; rewrite ?orb_true_r; reflexivity).
  rewrite SOME in E. cbn [andb] in E. unfold sane_rounds in E.
  assert (R1 : on ROUNDS (set ROUNDS cb) = true).
  { rewrite on_rounds, set_bit. change (flag_of ROUNDS) with (2 ^ 24)%N. rewrite N.pow2_bits_true. apply orb_true_r. }
  rewrite R1 in E. cbn [v_rounds set_rounds] in E.
  assert (SB : forall x b, flag_of x = N.shiftl 1 b -> (b < 64)%N -> b <> 24%N -> on x (set ROUNDS cb) = on x cb).
  { intros x b F L D. rewrite !(on_testbit x b) by exact F. destruct (rounds_flag_only b D cb) as [X|X]; [exact X|lia]. }
  rewrite (SB GOST_YESCRYPT 29%N), (SB YESCRYPT 30%N), (SB BLOWFISH_PASS 25%N) in E by (try reflexivity; discriminate).
  destruct (on GOST_YESCRYPT cb || on YESCRYPT cb) eqn:GY; [injection E as <- <-; auto|]. destruct (on BLOWFISH_PASS cb) eqn:BL; [injection E as <- <-; auto|].
  exfalso. rewrite orb_false_l in SOME. rewrite GY in SOME. discriminate.
Qed.
Example rounds_default_example : match set_ctrl true 0 (fun _ => None) (mkVals (Some (-1)) (Some 0) (Some 0)) [lit "gost_yescrypt"; lit "debug"] with
  | Ok (c, v) => on ROUNDS c = true /\ v_rounds v = Some 5 | _ => False end /\ chosen (fun _ => None) [lit "gost_yescrypt"; lit "debug"] = Some GOST_YESCRYPT.
Proof. vm_compute. repeat split. Qed.

(** * Numbers *)
(** A whole decimal number, with blanks before it and a sign allowed; its value. *)
Definition number (s : cstr) (n : Z) : Prop :=
  exists blanks sg ds, s = (blanks ++ sg ++ ds)%list /\ Forall (fun c => isspace c = true) blanks /\ ds <> [] /\ Forall (fun c => isdigit c = true) ds /\
    (sg = [] \/ sg = lit "+" \/ sg = lit "-") /\
    n = (if streq sg (lit "-") then -1 else 1) * fold_left (fun a c => a * 10 + digit_val c) ds 0.

Lemma digits_all : forall ds acc n, Forall (fun c => isdigit c = true) ds -> digits ds acc n = (fold_left (fun a c => a * 10 + digit_val c) ds acc, (n + length ds)%nat, []).
Proof.
  induction ds as [|c ds IH]; intros acc n F; cbn [digits fold_left length]; [rewrite Nat.add_0_r; reflexivity|].
  inversion F as [|? ? A B]; subst. rewrite A, (IH _ _ B). f_equal. f_equal. lia.
Qed.
Lemma digits_split : forall s acc n v k r, digits s acc n = (v, k, r) -> exists ds, s = (ds ++ r)%list /\ Forall (fun c => isdigit c = true) ds /\ k = (n + length ds)%nat /\
  v = fold_left (fun a c => a * 10 + digit_val c) ds acc.
Proof.
  induction s as [|c s IH]; intros acc n v k r H; cbn [digits] in H.
  - injection H as <- <- <-. exists []. cbn. rewrite Nat.add_0_r. auto.
  - destruct (isdigit c) eqn:D.
    + apply IH in H. destruct H as (ds & -> & F & -> & ->). exists (c :: ds). cbn [app length fold_left]. repeat split; try reflexivity; [constructor; assumption|lia].
    + injection H as <- <- <-. exists []. cbn. rewrite Nat.add_0_r. auto.
Qed.
Lemma skip_split : forall s, exists b, s = (b ++ skip_spaces s)%list /\ Forall (fun c => isspace c = true) b.
Proof.
  induction s as [|c s (b & E & F)]; [exists []; auto|]. cbn [skip_spaces]. destruct (isspace c) eqn:D; [|exists []; auto].
  exists (c :: b). cbn [app]. rewrite <- E. auto.
Qed.
Lemma skip_app : forall b s, Forall (fun c => isspace c = true) b -> (forall c r, s = c :: r -> isspace c = false) -> skip_spaces (b ++ s) = s.
Proof.
  induction b as [|c b IH]; intros s F H.
  - cbn [app]. destruct s as [|c r]; [reflexivity|]. cbn [skip_spaces]. rewrite (H c r eq_refl). reflexivity.
  - inversion F as [|? ? A B]; subst. cbn [app skip_spaces]. rewrite A. apply IH; assumption.
Qed.

Lemma digit_no_space : forall c, isdigit c = true -> isspace c = false.
Proof.
  intros c H. unfold isdigit in H. apply andb_prop in H. destruct H as [A B]. apply Nat.leb_le in A. apply Nat.leb_le in B. unfold isspace.
  apply orb_false_intro; [apply Nat.eqb_neq; lia|]. apply andb_false_intro2. apply Nat.leb_gt. lia.
Qed.

Lemma strtol_clamp : forall s v, strtol s = (v, Some []) <-> exists n, number s n /\ v = clamp LONG_MIN LONG_MAX n.
Proof.
  intros s v. unfold strtol. split.
  - destruct (skip_split s) as (b & E & F). destruct (sign (skip_spaces s)) as [neg s1] eqn:S. destruct (digits s1 0 0) as [[w n] r] eqn:D.
    destruct (Nat.eqb n 0) eqn:Z0; [discriminate|]. intro H. injection H as <- ->. apply digits_split in D. destruct D as (ds & E1 & Fd & En & Ew). rewrite app_nil_r in E1. subst s1.
    apply Nat.eqb_neq in Z0. assert (ND : ds <> []) by (intros ->; apply Z0; exact En).
    assert (SG : exists sg, skip_spaces s = (sg ++ ds)%list /\ (sg = [] \/ sg = lit "+" \/ sg = lit "-") /\ neg = streq sg (lit "-")).
    { revert S. unfold sign. destruct (skip_spaces s) as [|c q]; [intro S; injection S as <- <-; contradiction|].
      destruct (Ascii.eqb c "-") eqn:M; [apply Ascii.eqb_eq in M; subst c; intro S; injection S as <- <-; exists (lit "-"); auto|].
      destruct (Ascii.eqb c "+") eqn:P; [apply Ascii.eqb_eq in P; subst c; intro S; injection S as <- <-; exists (lit "+"); auto|].
      intro S; injection S as <- <-. exists []. auto. }
    destruct SG as (sg & E2 & C & ->). exists ((if streq sg (lit "-") then -1 else 1) * w). split.
    + exists b, sg, ds. rewrite <- E2. repeat split; try assumption. rewrite Ew. reflexivity.
    + f_equal. destruct (streq sg (lit "-")); lia.
  - intros (n & (b & sg & ds & -> & Fb & ND & Fd & C & ->) & ->).
    assert (NS : forall c r, (sg ++ ds)%list = c :: r -> isspace c = false).
    { intros c r H. pose proof (digit_no_space c) as Dg.
      destruct C as [->|[->| ->]]; cbn in H.
      - destruct ds as [|d ds]; [contradiction|]. injection H as <- _. inversion Fd; subst. auto.
      - injection H as <- _. reflexivity.
      - injection H as <- _. reflexivity. }
    rewrite skip_app by assumption.
    assert (SG : sign (sg ++ ds) = (streq sg (lit "-"), ds)).
    { destruct C as [->|[->| ->]]; [|reflexivity|reflexivity]. cbn [app streq lit list_ascii_of_string]. destruct ds as [|d ds]; [contradiction|]. unfold sign.
      inversion Fd as [|? ? A B]; subst. destruct (Ascii.eqb d "-") eqn:M; [apply Ascii.eqb_eq in M; subst d; discriminate|].
      destruct (Ascii.eqb d "+") eqn:P; [apply Ascii.eqb_eq in P; subst d; discriminate|]. reflexivity. }
    rewrite SG, (digits_all ds 0 0 Fd). cbn [Nat.add]. destruct ds as [|d ds]; [contradiction|]. cbn [length Nat.eqb]. f_equal. f_equal. destruct (streq sg (lit "-")); lia.
Qed.
Example strtol_example : strtol (lit " -12") = (-12, Some []) /\ strtol (lit "12x") = (12, Some (lit "x")) /\ strtol (lit "99999999999999999999") = (LONG_MAX, Some []) /\ strtol (lit "") = (0, None).
Proof. vm_compute. repeat split; reflexivity. Qed.

(** strtol up to the end of the text reads exactly the numbers, and the nearest long where they are outside its range. *)
Theorem strtol_reads_numbers : forall s v, strtol s = (v, Some []) <-> exists n, number s n /\ v = Z.max LONG_MIN (Z.min LONG_MAX n).
Proof.
  intros s v. rewrite strtol_clamp. assert (A : LONG_MIN < LONG_MAX) by reflexivity.
  assert (C : forall n, clamp LONG_MIN LONG_MAX n = Z.max LONG_MIN (Z.min LONG_MAX n)).
  { intro n. unfold clamp. destruct (Z.ltb_spec n LONG_MIN); [lia|]. destruct (Z.ltb_spec LONG_MAX n); lia. }
  split; intros (n & K & ->); exists n; rewrite C; auto.
Qed.

Lemma number_clamp : forall s k k', number s k -> number s k' -> clamp LONG_MIN LONG_MAX k = clamp LONG_MIN LONG_MAX k'.
Proof.
  intros s k k' K K'. assert (X : strtol s = (clamp LONG_MIN LONG_MAX k, Some [])) by (apply strtol_clamp; eauto).
  assert (Y : strtol s = (clamp LONG_MIN LONG_MAX k', Some [])) by (apply strtol_clamp; eauto). congruence.
Qed.
Lemma clamp_in : forall k m, -1 <= m <= 0 -> m <= clamp LONG_MIN LONG_MAX k <= INT_MAX <-> m <= k <= INT_MAX.
Proof.
  intros k m Hm. unfold clamp. assert (A : LONG_MIN < -1 /\ INT_MAX < LONG_MAX) by (split; reflexivity). destruct (Z.ltb_spec k LONG_MIN); [lia|]. destruct (Z.ltb_spec LONG_MAX k); lia.
Qed.
Lemma clamp_id : forall k m, -1 <= m <= 0 -> m <= k <= INT_MAX -> clamp LONG_MIN LONG_MAX k = k.
Proof.
  intros k m Hm. unfold clamp. assert (A : LONG_MIN < -1 /\ INT_MAX < LONG_MAX) by (split; reflexivity). destruct (Z.ltb_spec k LONG_MIN); [lia|]. destruct (Z.ltb_spec LONG_MAX k); lia.
Qed.
Lemma strtoi_cases : forall s m n ok, -1 <= m <= 0 -> strtoi s m = (n, ok) ->
  (ok = true /\ number s n /\ m <= n <= INT_MAX) \/ (ok = false /\ n = m /\ ~ exists k, number s k /\ m <= k <= INT_MAX).
Proof.
  intros s m n ok Hm H. unfold strtoi in H. destruct (strtol s) as [v ep] eqn:E.
  assert (NN : ep <> Some [] -> ~ exists k, number s k /\ m <= k <= INT_MAX).
  { intros D (k & K & _). assert (X : strtol s = (clamp LONG_MIN LONG_MAX k, Some [])) by (apply strtol_clamp; eauto). congruence. }
  destruct ep as [[|c r]|]; [|right; injection H as <- <-; repeat split; apply NN; discriminate|right; injection H as <- <-; repeat split; apply NN; discriminate].
  apply strtol_clamp in E. destruct E as (k & K & ->). pose proof (clamp_in k m Hm) as CI.
  destruct (Z.ltb_spec (clamp LONG_MIN LONG_MAX k) m) as [A|A]; [|destruct (Z.ltb_spec INT_MAX (clamp LONG_MIN LONG_MAX k)) as [B|B]]; cbn [orb] in H; injection H as <- <-.
  - right. repeat split. intros (k' & K' & L). rewrite (number_clamp _ _ _ K K') in A. apply (clamp_in k' m Hm) in L. lia.
  - right. repeat split. intros (k' & K' & L). rewrite (number_clamp _ _ _ K K') in B. apply (clamp_in k' m Hm) in L. lia.
  - left. assert (L : m <= k <= INT_MAX) by (apply CI; lia). rewrite (clamp_id k m Hm L). auto.
Qed.

(** The value a list of arguments gives to a number option: that of the last argument naming it, [m] if that is no
    number from [m] up; the starting value if there is none. *)
Inductive last_value (t : string) (m : Z) : list cstr -> Z -> Z -> Prop :=
| lv_none : forall argv start, ~ given t argv -> last_value t m argv start start
| lv_number : forall pre s post start n, ~ given t post -> number s n -> m <= n <= INT_MAX -> last_value t m (pre ++ (lit t ++ s) :: post)%list start n
| lv_bad : forall pre s post start, ~ given t post -> (~ exists n, number s n /\ m <= n <= INT_MAX) -> last_value t m (pre ++ (lit t ++ s) :: post)%list start m.

Lemma given_cons : forall t a l, given t (a :: l) <-> is_prefix (lit t) a = true \/ given t l.
Proof.
  intros t a l. unfold given. rewrite is_prefix_spec. split.
  - intros (x & r & [<-|I] & ->); [left; eauto|right; eauto].
  - intros [[r ->]|(x & r & I & ->)]; [exists (lit t ++ r)%list, r|exists (lit t ++ r)%list, r]; cbn [In]; auto.
Qed.
Lemma given_snoc : forall t a l, given t (l ++ [a]) <-> given t l \/ is_prefix (lit t) a = true.
Proof.
  intros t a l. induction l as [|b l IH]; cbn [app]; rewrite !given_cons.
  - tauto.
  - rewrite IH. tauto.
Qed.
Lemma lv_snoc_other : forall t m argv a st n, is_prefix (lit t) a = false -> last_value t m argv st n -> last_value t m (argv ++ [a]) st n.
Proof.
  intros t m argv a st n P H. inversion H; subst.
  - apply lv_none. rewrite given_snoc. intros [X|X]; [contradiction|congruence].
  - rewrite <- app_assoc. cbn [app]. apply lv_number; [|assumption|assumption]. rewrite given_snoc. intros [X|X]; [contradiction|congruence].
  - rewrite <- app_assoc. cbn [app]. apply lv_bad; [|assumption]. rewrite given_snoc. intros [X|X]; [contradiction|congruence].
Qed.
Lemma not_given_nil : forall t, ~ given t [].
Proof. intros t (a & r & [] & _). Qed.

Lemma one_arg_minlen : forall a c v n, v_minlen v = Some n -> v_minlen (snd (one_arg a (c, v))) =
  Some (if is_prefix (lit "minlen=") a then fst (strtoi (skipn 7 a) 0) else n).
Proof.
  intros a c v n V. destruct (is_prefix (lit "minlen=") a) eqn:P.
  - pose proof (find_named MIN_PASS_LEN _ _ a eq_refl eq_refl P) as F. unfold one_arg. rewrite F. change (token_length _) with 7%nat. cbn [Nat.eqb MIN_PASS_LEN REMEMBER]. rewrite V.
    destruct (strtoi (skipn 7 a) 0) as [k ok]. reflexivity.
  - unfold one_arg. destruct (find_row (names_option a) 0 unix_args) as [[j r]|] eqn:F; [|exact V]. pose proof (find_is_named _ _ _ F) as (J & t & T & Q).
    destruct (j =? REMEMBER)%nat. { destruct (v_remember v); [|exact V]. destruct (strtoi _ _) as [k ok]. destruct ok; exact V. }
    destruct (j =? MIN_PASS_LEN)%nat eqn:E2. { apply Nat.eqb_eq in E2. subst j. injection J as <-. change (Some (lit "minlen=") = Some t) in T. inversion T as [T']. rewrite <- T' in Q. congruence. }
    destruct (j =? ROUNDS)%nat. { destruct (v_rounds v); [|exact V]. destruct (strtoi _ _) as [k ok]. exact V. }
    exact V.
Qed.
Lemma one_arg_remember : forall a c v n, v_remember v = Some n -> v_remember (snd (one_arg a (c, v))) =
  Some (if is_prefix (lit "remember=") a then Z.min 400 (fst (strtoi (skipn 9 a) (-1))) else n).
Proof.
  intros a c v n V. destruct (is_prefix (lit "remember=") a) eqn:P.
  - pose proof (find_named REMEMBER _ _ a eq_refl eq_refl P) as F. unfold one_arg. rewrite F. change (token_length _) with 9%nat. cbn [Nat.eqb REMEMBER]. rewrite V.
    destruct (strtoi (skipn 9 a) (-1)) as [k ok] eqn:S. apply strtoi_cases in S; [|lia]. cbn [fst]. destruct ok; cbn [snd v_remember]; f_equal.
    + destruct (400 <? k) eqn:G; lia.
    + destruct S as [(X & _)|(_ & -> & _)]; [discriminate|lia].
  - unfold one_arg. destruct (find_row (names_option a) 0 unix_args) as [[j r]|] eqn:F; [|exact V]. pose proof (find_is_named _ _ _ F) as (J & t & T & Q).
    destruct (j =? REMEMBER)%nat eqn:E2. { apply Nat.eqb_eq in E2. subst j. injection J as <-. change (Some (lit "remember=") = Some t) in T. inversion T as [T']. rewrite <- T' in Q. congruence. }
    destruct (j =? MIN_PASS_LEN)%nat. { destruct (v_minlen v); [|exact V]. destruct (strtoi _ _) as [k ok]. exact V. }
    destruct (j =? ROUNDS)%nat. { destruct (v_rounds v); [|exact V]. destruct (strtoi _ _) as [k ok]. exact V. }
    exact V.
Qed.
Lemma skipn_prefix : forall t a, is_prefix t a = true -> a = (t ++ skipn (length t) a)%list.
Proof. intros t a P. apply is_prefix_spec in P. destruct P as [r ->]. rewrite skipn_app, skipn_all, Nat.sub_diag. reflexivity. Qed.
Lemma lv_step : forall t m k argv a st n, (-1 <= m <= 0) -> length (lit t) = k -> last_value t m argv st n ->
  last_value t m (argv ++ [a]) st (if is_prefix (lit t) a then fst (strtoi (skipn k a) m) else n).
Proof.
  intros t m k argv a st n Hm K H. destruct (is_prefix (lit t) a) eqn:P; [|apply lv_snoc_other; assumption].
  rewrite (skipn_prefix _ _ P) at 1. rewrite K. destruct (strtoi (skipn k a) m) as [w ok] eqn:S. apply strtoi_cases in S; [|exact Hm]. cbn [fst].
  destruct S as [(_ & Nb & L)|(_ & -> & B)]; [apply lv_number; [apply not_given_nil|exact Nb|exact L]|apply lv_bad; [apply not_given_nil|exact B]].
Qed.
Lemma args_minlen : forall argv c v n, v_minlen v = Some n -> exists k, v_minlen (snd (fold_left (fun s a => one_arg a s) argv (c, v))) = Some k /\ last_value "minlen=" 0 argv n k.
Proof.
  induction argv as [|a argv IH] using rev_ind; intros c v n V; [exists n; split; [exact V|apply lv_none, not_given_nil]|].
  rewrite fold_left_app. cbn [fold_left]. destruct (IH c v n V) as (k & E & L). destruct (fold_left _ argv (c, v)) as [c1 v1]. cbn [snd] in E.
  eexists. split; [apply one_arg_minlen; exact E|]. apply lv_step; [lia|reflexivity|exact L].
Qed.
Lemma args_remember : forall argv c v n, v_remember v = Some n -> n <= 400 -> exists k, v_remember (snd (fold_left (fun s a => one_arg a s) argv (c, v))) = Some (Z.min 400 k) /\ last_value "remember=" (-1) argv n k.
Proof.
  induction argv as [|a argv IH] using rev_ind; intros c v n V N4; [exists n; split; [rewrite Z.min_r by lia; exact V|apply lv_none, not_given_nil]|].
  rewrite fold_left_app. cbn [fold_left]. destruct (IH c v n V N4) as (k & E & L). destruct (fold_left _ argv (c, v)) as [c1 v1]. cbn [snd] in E.
  exists (if is_prefix (lit "remember=") a then fst (strtoi (skipn 9 a) (-1)) else k). split; [rewrite (one_arg_remember _ _ _ _ E)|apply lv_step; [lia|reflexivity|exact L]].
  destruct (is_prefix (lit "remember=") a); reflexivity.
Qed.

Lemma tail_vals : forall defs s c' v', sane_rounds (default_rounds (rounds_from_defs defs s)) = Ok (c', v') -> v_minlen v' = v_minlen (snd s) /\ v_remember v' = v_remember (snd s).
Proof.
  intros defs [c v] c' v' H.
  assert (A : v_minlen (snd (rounds_from_defs defs (c, v))) = v_minlen v /\ v_remember (snd (rounds_from_defs defs (c, v))) = v_remember v).
  { unfold rounds_from_defs. destruct (v_rounds v); [|auto]. destruct (off ROUNDS c); [|auto].
    match goal with |- context [match ?k with Some _ => _ | None => _ end] => destruct k as [key|] end; [|auto].
    destruct (defs key) as [val|]; [|auto]. destruct (strtoi val 0) as [n ok]. auto. }
  destruct (rounds_from_defs defs (c, v)) as [c1 v1]. cbn [snd] in A.
  assert (B : v_minlen (snd (default_rounds (c1, v1))) = v_minlen v1 /\ v_remember (snd (default_rounds (c1, v1))) = v_remember v1).
  { unfold default_rounds. destruct (v_rounds v1); [|auto]. match goal with |- context [if ?b then _ else _] => destruct b end; auto. }
  destruct (default_rounds (c1, v1)) as [c2 v2]. cbn [snd] in *.
  assert (C : v_minlen v' = v_minlen v2 /\ v_remember v' = v_remember v2).
  { revert H. unfold sane_rounds. destruct (on ROUNDS c2); [|intro H; injection H as <- <-; auto].
    destruct (on GOST_YESCRYPT c2 || on YESCRYPT c2); [destruct (v_rounds v2); [|discriminate]; intro H; injection H as <- <-; auto|].
    destruct (on BLOWFISH_PASS c2); [destruct (v_rounds v2); [|discriminate]; intro H; injection H as <- <-; auto|].
    destruct (on SHA256_PASS c2 || on SHA512_PASS c2); [|intro H; injection H as <- <-; auto].
    destruct (v_rounds v2) as [n|]; [|discriminate]. destruct ((n <? 1000) || (n =? INT_MAX)); [intro H; injection H as <- <-; auto|].
    destruct (10000000 <=? n); intro H; injection H as <- <-; auto. }
  intuition congruence.
Qed.

(** The number of remembered passwords and the minimum length are those of the last argument naming them, at most 400
    and, with DES, at most 8. *)
Theorem number_options : forall root flags defs v argv c v' r0 m0, set_ctrl root flags defs v argv = Ok (c, v') ->
  v_remember v = Some r0 -> r0 <= 400 -> v_minlen v = Some m0 ->
  exists r m, v_remember v' = Some (Z.min 400 r) /\ last_value "remember=" (-1) argv r0 r /\
    last_value "minlen=" 0 argv m0 m /\ v_minlen v' = Some (if des_crypt c then Z.min 8 m else m).
Proof.
  intros root flags defs v argv c v' r0 m0 H R L4 M. pose proof (hash_method _ _ _ _ _ _ _ H) as HM. unfold set_ctrl in H. fold (args root flags defs v argv) in H.
  destruct (sane_rounds _) as [[c1 v1]| |] eqn:E; cbn [bind] in H; try discriminate. injection H as <- <-.
  destruct (tail_vals _ _ _ _ E) as [T1 T2].
  destruct (args_remember argv (preset (defs (lit "ENCRYPT_METHOD")) (manual_flags root flags)) v r0 R L4) as (r & R1 & R2). fold (args root flags defs v argv) in R1.
  destruct (args_minlen argv (preset (defs (lit "ENCRYPT_METHOD")) (manual_flags root flags)) v m0 M) as (m & M1 & M2). fold (args root flags defs v argv) in M1.
  exists r, m. 
  assert (DC : des_crypt (if on AUDIT c1 then set DEBUG c1 else c1) = des_crypt (fst (args root flags defs v argv))).
  { assert (K : forall x, In x flagged -> on x (if on AUDIT c1 then set DEBUG c1 else c1) = on x (fst (args root flags defs v argv))).
    { intros x I. destruct (flagged_bits x I) as [B F]. rewrite !(on_bit x _ F).
      assert (X : (bitno x < 64)%N /\ bitno x <> 9%N /\ bitno x <> 24%N /\ bitno x <> 14%N) by (unfold hash_bits in B; cbn [In] in B; lia).
      destruct X as (L & D1 & D2 & D3). rewrite <- (after_bit flags _ _ L D1). rewrite <- (tail_bit _ _ _ _ _ L D2 E).
      destruct (on AUDIT c1); [|reflexivity]. rewrite set_bit. change (flag_of DEBUG) with (2 ^ 14)%N. change (mask_of DEBUG) with (N.ones 64).
      rewrite N.pow2_bits_false by congruence. rewrite N.ones_spec_low by exact L. rewrite andb_true_r, orb_false_r. reflexivity. }
    unfold des_crypt, off. rewrite !K by in_flagged. reflexivity. }
  rewrite DC. destruct (args root flags defs v argv) as [c0 v0]. unfold after_args in T1, T2. cbn [fst snd] in *. rewrite M1 in T1, T2.
  split; [rewrite T2; destruct (des_crypt c0 && (8 <? m)); exact R1|]. split; [exact R2|]. split; [exact M2|]. rewrite T1.
  destruct (des_crypt c0); cbn [andb]; [|exact M1]. destruct (8 <? m) eqn:G; cbn [v_minlen]; [f_equal; lia|]. rewrite M1. f_equal. lia.
Qed.
Example number_options_example : last_value "minlen=" 0 [lit "minlen=6"; lit "debug"; lit "minlen=x"; lit "sha512"] 0 0.
Proof.
  apply (lv_bad "minlen=" 0 [lit "minlen=6"; lit "debug"] (lit "x") [lit "sha512"]).
  - intros (a & r & [<-|[]] & E). discriminate.
  - intros (n & K & _). assert (X : strtol (lit "x") = (clamp LONG_MIN LONG_MAX n, Some [])) by (apply strtol_clamp; eauto). discriminate.
Qed.

(** * quiet *)
Lemma quiet_arg : forall a c v, N.testbit (fst (one_arg a (c, v))) 27 = (is_prefix (lit "quiet") a || N.testbit c 27) && (is_prefix (lit "quiet") a || match method_of a with Some _ => false | None => true end).
Proof.
  intros a c v. destruct (is_prefix (lit "quiet") a) eqn:P.
  - pose proof (find_named QUIET _ _ a eq_refl eq_refl P) as F. rewrite (one_arg_plain _ c v _ _ F eq_refl). cbn [fst orb andb]. rewrite apply_row_bit. rewrite orb_true_iff. right. reflexivity.
  - cbn [orb]. rewrite method_of_row.
    assert (K : forall j r t, nth_error unix_args j = Some r -> token r = Some t -> j <> QUIET -> N.testbit (cmask r) 27 = negb (is_hash r) /\ N.testbit (cflag r) 27 = false).
    { intros j r t J T D. assert (A : forallb (fun j => (j =? QUIET)%nat || match nth_error unix_args j with Some r => match token r with Some _ => Bool.eqb (N.testbit (cmask r) 27) (negb (is_hash r)) && negb (N.testbit (cflag r) 27) | None => true end | None => true end) (seq 0 (length unix_args)) = true) by (vm_compute; reflexivity).
      rewrite forallb_forall in A. assert (Lj : (j < length unix_args)%nat) by (apply nth_error_Some; congruence). specialize (A j (in_range _ _ Lj)). rewrite J, T in A. apply Nat.eqb_neq in D. rewrite D in A. cbn [orb] in A.
      apply andb_prop in A. destruct A as [A B]. apply eqb_prop in A. apply negb_true_iff in B. auto. }
    pose proof (one_arg_ctrl a c v) as H. destruct (find_row (names_option a) 0 unix_args) as [[j r]|] eqn:F.
    + pose proof (find_is_named _ _ _ F) as (J & t & T & Q).
      assert (D : j <> QUIET). { intros ->. injection J as <-. change (Some (lit "quiet") = Some t) in T. inversion T as [T']. rewrite <- T' in Q. congruence. }
      destruct (K j r t J T D) as [K1 K2]. destruct (is_hash r) eqn:Hh.
      * rewrite (one_arg_plain _ c v _ _ F (valued_not_hash _ _ J Hh)). cbn [fst]. rewrite apply_row_bit, K1, K2. rewrite orb_false_r. reflexivity.
      * rewrite andb_true_r. destruct H as [->|(j' & r' & E & ->)]; [reflexivity|]. injection E as <- <-. rewrite apply_row_bit, K1, K2. rewrite andb_true_r, orb_false_r. reflexivity.
    + rewrite andb_true_r. destruct H as [->|(j' & r' & E & _)]; [reflexivity|discriminate].
Qed.

(** Session messages are off exactly when quiet is given and no hash method is named after it: the mask of the hash
    methods (support.h) also covers the bit of quiet. *)
Theorem quiet_option_partial : forall root flags defs v argv c v', set_ctrl root flags defs v argv = Ok (c, v') ->
  (on QUIET c = true <-> exists pre a post, argv = (pre ++ a :: post)%list /\ is_prefix (lit "quiet") a = true /\ last_method post = None).
Proof.
  intros root flags defs v argv c v' H. rewrite (on_testbit QUIET 27%N) by reflexivity. rewrite (set_ctrl_bit _ _ _ _ _ _ _ 27%N H) by (try reflexivity; discriminate). clear H c v'.
  unfold args. assert (B0 : N.testbit (preset (defs (lit "ENCRYPT_METHOD")) (manual_flags root flags)) 27 = false).
  { unfold preset. destruct (defs _) as [val|]; [|apply manual_bit; apply in_or_app; left; in_flagged]. destruct (find_row _ _ _) as [[j r]|] eqn:E; [|apply manual_bit; apply in_or_app; left; in_flagged].
    apply find_row_some in E. destruct E as (_ & J & P). unfold names_method in P. destruct (token r); [|discriminate]. apply andb_prop in P. destruct P as [P _]. rewrite apply_row_bit.
    rewrite manual_bit by (apply in_or_app; left; in_flagged). cbn [andb orb].
    assert (A : forallb (fun r => negb (is_hash r) || negb (N.testbit (cflag r) 27)) unix_args = true) by (vm_compute; reflexivity). rewrite forallb_forall in A. specialize (A r (nth_error_In _ _ J)). rewrite P in A. apply negb_true_iff. exact A. }
  revert B0. generalize (preset (defs (lit "ENCRYPT_METHOD")) (manual_flags root flags)) as c. intros c B0.
  induction argv as [|a argv IH] using rev_ind.
  - cbn [fold_left fst]. rewrite B0. split; [discriminate|]. intros (pre & a & post & E & _). destruct pre; discriminate.
  - rewrite fold_left_app. cbn [fold_left]. destruct (fold_left _ argv (c, v)) as [c1 v1]. cbn [fst] in IH. rewrite quiet_arg.
    assert (LS : forall l, last_method (l ++ [a]) = match method_of a with Some m => Some m | None => last_method l end).
    { induction l as [|b l IHl]; cbn [app last_method]; [destruct (method_of a); reflexivity|]. rewrite IHl. destruct (method_of a); reflexivity. }
    destruct (is_prefix (lit "quiet") a) eqn:P.
    + cbn [orb andb]. split; [intros _; exists argv, a, []; auto|reflexivity].
    + cbn [orb]. rewrite andb_true_iff, IH. split.
      * intros ((pre & b & post & -> & Q & L) & M). exists pre, b, (post ++ [a])%list. rewrite <- app_assoc. split; [reflexivity|]. split; [exact Q|]. rewrite LS. destruct (method_of a); [discriminate|exact L].
      * intros (pre & b & post & E & Q & L). destruct post as [|p post] using rev_ind.
        -- apply app_inj_tail in E. destruct E as [-> <-]. congruence.
        -- clear IHpost. rewrite app_comm_cons, app_assoc in E. apply app_inj_tail in E. destruct E as [-> <-]. rewrite LS in L. destruct (method_of a); [discriminate|]. split; [|reflexivity]. exists pre, b, post. auto.
Qed.
Theorem quiet_option_refuted : exists argv c v', given "quiet" argv /\ set_ctrl true 0 (fun _ => None) (mkVals None None None) argv = Ok (c, v') /\ on QUIET c = false.
Proof.
  exists [lit "quiet"; lit "sha512"], (N.lor (flag_of IAMROOT) (N.lor (flag_of NONULL) (flag_of SHA512_PASS))), (mkVals None None None).
  split; [exists (lit "quiet"), []; split; [left; reflexivity|reflexivity]|]. split; vm_compute; reflexivity.
Qed.

Print Assumptions options_defined.
Print Assumptions simple_options.
Print Assumptions debug_option.
Print Assumptions nullok_option.
Print Assumptions hash_method.
Print Assumptions first_pass_options.
Print Assumptions phase_flags.
Print Assumptions rounds_sane. Print Assumptions rounds_default.
Print Assumptions strtol_reads_numbers.
Print Assumptions number_options.
Print Assumptions quiet_option_partial.
Print Assumptions quiet_option_refuted.
