(** pam_namespace: the paths of instances, the check of a path, users and the root mount. *)
From Coq Require Import String Ascii List Arith ZArith Bool Lia.
From Verif Require Import Base Str_Model Str_Facts Opt_Model Opt_Facts Nsopen_Model Nsconf_Model Nsconf_Props Nsname_Model.
Import ListNotations.

Lemma rsplit_some : forall c s a b, rsplit c s = Some (a, b) <-> s = (a ++ c :: b)%list /\ ~ In c b.
Proof.
  intros c s a b. unfold rsplit. destruct (split_at c (rev s)) as [[x y]|] eqn:Q.
  - apply split_at_some in Q. destruct Q as [Q N]. apply (f_equal (@rev ascii)) in Q. rewrite rev_involutive, rev_app_distr in Q. cbn [rev] in Q. rewrite <- app_assoc in Q. cbn [app] in Q. split.
    + intros [= <- <-]. split; [exact Q|]. rewrite <- in_rev. exact N.
    + intros [R M]. assert (Y : split_at c (rev s) = Some (rev b, rev a)).
      { apply split_at_some. split; [rewrite R, rev_app_distr; cbn [rev]; rewrite <- app_assoc; reflexivity|rewrite <- in_rev; exact M]. }
      assert (Z0 : split_at c (rev s) = Some (x, y)) by (apply split_at_some; split; [apply (f_equal (@rev ascii)) in Q; rewrite rev_app_distr in Q; cbn [rev] in Q; rewrite !rev_involutive, <- app_assoc in Q; exact Q|exact N]).
      rewrite Y in Z0. injection Z0 as <- <-. rewrite !rev_involutive. reflexivity.
  - split; [discriminate|]. intros [-> N]. apply split_at_none in Q. exfalso. apply Q. rewrite <- in_rev. apply in_or_app. right. left. reflexivity.
Qed.
Lemma rsplit_none : forall c s, rsplit c s = None <-> ~ In c s.
Proof.
  intros c s. unfold rsplit. destruct (split_at c (rev s)) as [[x y]|] eqn:Q.
  - split; [discriminate|]. intro N. apply split_at_some in Q. destruct Q as [Q _]. exfalso. apply N. rewrite in_rev, Q. apply in_or_app. right. left. reflexivity.
  - apply split_at_none in Q. rewrite <- in_rev in Q. split; auto.
Qed.

(** ** Names of instances *)
(** What tells the instances of a directory apart. *)
Inductive differs (ctxt : bool) (raw : option cstr) (user : cstr) (p : poly) : cstr -> Prop :=
| di_user : p_method p = USER -> differs ctxt raw user p user
| di_fallback : (p_method p = LEVEL \/ p_method p = CONTEXT) -> ctxt = false -> p_shared p = false -> differs ctxt raw user p user
| di_shared : forall c, (p_method p = LEVEL \/ p_method p = CONTEXT) -> ctxt = true -> raw = Some c -> p_shared p = true -> differs ctxt raw user p c
| di_context : forall c, (p_method p = LEVEL \/ p_method p = CONTEXT) -> ctxt = true -> raw = Some c -> p_shared p = false -> differs ctxt raw user p (c ++ lit "_" ++ user)%list.
(** How it is shortened: with gen_hash always to the hash, otherwise if it has more than 80 characters to 80, with the hash at the end. *)
Inductive shortened (H : cstr -> cstr) (gen : bool) (d : cstr) : cstr -> Prop :=
| sh_hash : gen = true -> shortened H gen d (H d)
| sh_same : gen = false -> length d <= 80 -> shortened H gen d d
| sh_long : forall a b, gen = false -> 80 < length d -> d = (a ++ b)%list -> length a = 47 -> shortened H gen d (a ++ lit "_" ++ H d)%list.
(** The name that follows the prefix. *)
Definition instance (H : cstr -> cstr) (gen ctxt : bool) (raw : option cstr) (user : cstr) (p : poly) (n : cstr) : Prop :=
  (exists d, differs ctxt raw user p d /\ shortened H gen d n) \/ (p_method p = TMPDIR /\ n = lit "XXXXXX") \/ (p_method p = TMPFS /\ n = []).
Lemma pick_name_iff : forall H gen d n, length (H d) = 32 -> (pick_name H gen d = n <-> shortened H gen d n).
Proof.
  intros H gen d n L. unfold pick_name, MAX_DIR_LEN. rewrite L. change (Nat.ltb (80 - 1) 32) with false. change (80 - 1 - 32) with 47. destruct gen; cbn [orb].
  - split; [intros <-; constructor; reflexivity|]. intro S0. inversion S0; congruence.
  - destruct (Nat.ltb_spec 80 (length d)) as [G|G].
    + split.
      * intros <-. apply sh_long with (skipn 47 d); [reflexivity|exact G|symmetry; apply firstn_skipn|]. rewrite firstn_length. lia.
      * intro S0. destruct S0 as [X|X G2|a b X _ Q La]; [congruence|exfalso; lia|]. f_equal. rewrite Q at 1. rewrite <- La, firstn_app, Nat.sub_diag, firstn_all. cbn [firstn]. apply app_nil_r.
    + split; [intros <-; constructor; [reflexivity|lia]|]. intro S0. inversion S0; [congruence|reflexivity|match goal with X : 80 < length d |- _ => lia end].
Qed.
Definition located (prefix n : cstr) (x : paths) : Prop :=
  i_abs x = (prefix ++ n)%list /\ (Z.of_nat (length (i_abs x)) < 4096)%Z /\ i_abs x = (i_parent x ++ i_name x)%list /\ (exists a, i_parent x = a ++ ["/"%char])%list /\ ~ In "/"%char (i_name x).
Lemma set_paths_iff : forall prefix n, (forall x, set_paths prefix n = Ok (Some x) <-> located prefix n x) /\
  (set_paths prefix n = Ok None <-> (4096 <= Z.of_nat (length (prefix ++ n)))%Z) /\ (set_paths prefix n = UB <-> (Z.of_nat (length (prefix ++ n)) < 4096)%Z /\ ~ In "/"%char (prefix ++ n)%list).
Proof.
  intros prefix n. unfold set_paths, fits, PATH_MAX, located. destruct (Z.ltb_spec (Z.of_nat (length (prefix ++ n))) 4096) as [L|L]; cbn [negb].
  - destruct (rsplit "/"%char (prefix ++ n)) as [[a b]|] eqn:R.
    + pose proof (proj1 (rsplit_some _ _ _ _) R) as [Q N]. split; [|split; [split; [discriminate|lia]|split; [discriminate|intros [_ M]; exfalso; apply M; rewrite Q; apply in_or_app; right; left; reflexivity]]].
      intros [x y z]. cbn [i_abs i_parent i_name]. split.
      * intros [= <- <- <-]. repeat split; [exact L|rewrite Q, <- app_assoc; reflexivity|exists a; reflexivity|exact N].
      * intros (-> & _ & E & (a' & ->) & N'). rewrite <- app_assoc in E. cbn [app] in E. assert (Y : rsplit "/"%char (prefix ++ n) = Some (a', z)) by (apply rsplit_some; auto). rewrite R in Y. injection Y as <- <-. reflexivity.
    + apply rsplit_none in R. split; [|split; [split; [discriminate|lia]|split; auto]]. intro x. split; [discriminate|]. intros (E1 & _ & E & (a & Pa) & _). exfalso. apply R. rewrite <- E1, E, Pa. apply in_or_app. left. apply in_or_app. right. left. reflexivity.
  - split; [|split; [split; auto|split; [discriminate|lia]]]. intro x. split; [discriminate|]. intros (E1 & L2 & _). rewrite E1 in L2. lia.
Qed.
(** Which instance a user gets, and where it lies. PAM_IGNORE is for shared instances when there is no context. *)
Theorem ns_instance : forall H gen ctxt raw user p, (forall d, length (H d) = 32) -> In "/"%char (p_prefix p) ->
  (forall x, poly_name H gen ctxt PAM_SUCCESS raw user p = Ok (PAM_SUCCESS, Some x) <-> exists n, instance H gen ctxt raw user p n /\ located (p_prefix p) n x) /\
  (poly_name H gen ctxt PAM_SUCCESS raw user p = Ok (PAM_IGNORE, None) <-> (p_method p = LEVEL \/ p_method p = CONTEXT) /\ ctxt = false /\ p_shared p = true) /\
  (exists r, poly_name H gen ctxt PAM_SUCCESS raw user p = Ok r).
Proof.
  intros H gen ctxt raw user p L32 SL. unfold poly_name. change (negb (PAM_SUCCESS =? PAM_SUCCESS)%Z) with false. cbv iota. cbv zeta.
  assert (FI : forall d, let r := bind (set_paths (p_prefix p) d) (fun r => Ok match r with None => (PAM_SESSION_ERR, None) | Some x => (PAM_SUCCESS, Some x) end) in
    (forall x, r = Ok (PAM_SUCCESS, Some x) <-> located (p_prefix p) d x) /\ r <> Ok (PAM_IGNORE, None) /\ exists z, r = Ok z).
  { intro d. cbv zeta. destruct (set_paths_iff (p_prefix p) d) as (A & B & C). destruct (set_paths (p_prefix p) d) as [[y|]| |] eqn:SP; cbn [bind].
    - split; [|split; [discriminate|eauto]]. intro x. rewrite <- A. split; [intros [= ->]; reflexivity|intros [= ->]; reflexivity].
    - split; [|split; [discriminate|eauto]]. intro x. rewrite <- A. split; discriminate.
    - exfalso. destruct (proj1 C eq_refl) as [_ N]. apply N. apply in_or_app. left. exact SL.
    - exfalso. unfold set_paths in SP. destruct (negb (fits (p_prefix p ++ d))); [discriminate|]. destruct (rsplit _ _) as [[? ?]|]; discriminate. }
  assert (DU : forall d d', differs ctxt raw user p d -> differs ctxt raw user p d' -> d = d') by (intros d d' A B; inversion A; inversion B; subst; intuition congruence).
  assert (PN : forall d, differs ctxt raw user p d -> let r := bind (set_paths (p_prefix p) (pick_name H gen d)) (fun r => Ok match r with None => (PAM_SESSION_ERR, None) | Some x => (PAM_SUCCESS, Some x) end) in
    ((forall x, r = Ok (PAM_SUCCESS, Some x) <-> exists n, instance H gen ctxt raw user p n /\ located (p_prefix p) n x) /\ r <> Ok (PAM_IGNORE, None) /\ exists z, r = Ok z)).
  { intros d D. cbv zeta. destruct (FI (pick_name H gen d)) as (A & B & C). split; [|auto]. intro x. rewrite A. split.
    - intro Lo. exists (pick_name H gen d). split; [left; exists d; split; [exact D|apply pick_name_iff; auto]|exact Lo].
    - intros (n & [(d' & D' & S')|[[M _]|[M _]]] & Lo); [|inversion D; intuition congruence|inversion D; intuition congruence].
      rewrite (DU _ _ D D'). apply pick_name_iff in S'; [|apply L32]. rewrite S'. exact Lo. }
  assert (LC : forall m, p_method p = m -> (m = LEVEL \/ m = CONTEXT) ->
    let r := if ctxt then match raw with None => Ok (PAM_SESSION_ERR, None) | Some c => bind (set_paths (p_prefix p) (pick_name H gen (if p_shared p then c else (c ++ lit "_" ++ user)%list)))
               (fun r => Ok match r with None => (PAM_SESSION_ERR, None) | Some x => (PAM_SUCCESS, Some x) end) end
             else if p_shared p then Ok (PAM_IGNORE, None) else bind (set_paths (p_prefix p) (pick_name H gen user)) (fun r => Ok match r with None => (PAM_SESSION_ERR, None) | Some x => (PAM_SUCCESS, Some x) end) in
    (forall x, r = Ok (PAM_SUCCESS, Some x) <-> exists n, instance H gen ctxt raw user p n /\ located (p_prefix p) n x) /\
    (r = Ok (PAM_IGNORE, None) <-> (p_method p = LEVEL \/ p_method p = CONTEXT) /\ ctxt = false /\ p_shared p = true) /\ exists z, r = Ok z).
  { intros m M ML. assert (MM : p_method p = LEVEL \/ p_method p = CONTEXT) by (rewrite M; exact ML). cbv zeta. destruct ctxt eqn:CT.
    - destruct raw as [c|] eqn:RW.
      + destruct (PN (if p_shared p then c else (c ++ lit "_" ++ user)%list)) as (A & B & C).
        { destruct (p_shared p) eqn:Sh; [apply di_shared; auto|apply di_context; auto]. }
        split; [exact A|]. split; [|exact C]. split; [intro X; destruct (B X)|intros (_ & X & _); discriminate].
      + split; [|split; [split; [discriminate|intros (_ & X & _); discriminate]|eauto]]. intro x. split; [discriminate|].
        intros (n & [(d & D & _)|[[X _]|[X _]]] & _); [inversion D; intuition congruence|intuition congruence|intuition congruence].
    - destruct (p_shared p) eqn:Sh.
      + split; [|split; [split; auto|eauto]]. intro x. split; [discriminate|].
        intros (n & [(d & D & _)|[[X _]|[X _]]] & _); [inversion D; intuition congruence|intuition congruence|intuition congruence].
      + destruct (PN user) as (A & B & C); [apply di_fallback; auto|]. split; [exact A|]. split; [|exact C]. split; [intro X; destruct (B X)|intros (_ & _ & X); discriminate]. }
  destruct (p_method p) eqn:M.
  - destruct (PN user) as (A & B & C); [apply di_user; exact M|]. split; [exact A|]. split; [|exact C]. split; [intro X; destruct (B X)|intros ([X|X] & _); discriminate].
  - exact (LC CONTEXT eq_refl (or_intror eq_refl)).
  - exact (LC LEVEL eq_refl (or_introl eq_refl)).
  - destruct (FI (lit "XXXXXX")) as (A & B & C). split; [|split; [split; [intro X; destruct (B X)|intros ([X|X] & _); discriminate]|exact C]].
    intro x. rewrite A. split; [intro Lo; exists (lit "XXXXXX"); split; [right; left; auto|exact Lo]|].
    intros (n & [(d & D & _)|[[X ->]|[X _]]] & Lo); [inversion D; intuition congruence|exact Lo|congruence].
  - destruct (FI []) as (A & B & C). split; [|split; [split; [intro X; destruct (B X)|intros ([X|X] & _); discriminate]|exact C]].
    intro x. rewrite A. split; [intro Lo; exists []; split; [right; right; auto|exact Lo]|].
    intros (n & [(d & D & _)|[[X ->]|[X ->]]] & Lo); [inversion D; intuition congruence|congruence|exact Lo].
Qed.
(** With names free of slashes the directory of the instances is the one of the prefix, whoever the user is, and a name adds at most 80
    characters to what the prefix has after its last slash. *)
Theorem ns_instance_parent : forall H gen ctxt raw user p x, (forall d, length (H d) = 32 /\ ~ In "/"%char (H d)) -> ~ In "/"%char user -> (forall c, raw = Some c -> ~ In "/"%char c) ->
  In "/"%char (p_prefix p) -> poly_name H gen ctxt PAM_SUCCESS raw user p = Ok (PAM_SUCCESS, Some x) ->
  exists r n, p_prefix p = (i_parent x ++ r)%list /\ ~ In "/"%char r /\ i_name x = (r ++ n)%list /\ length n <= 80.
Proof.
  intros H gen ctxt raw user p x HH NU NR SL P. apply (ns_instance H gen ctxt raw user p (fun d => proj1 (HH d)) SL) in P. destruct P as (n & I & (A & _ & B & (a & Pa) & N)).
  assert (D1 : forall d, differs ctxt raw user p d -> ~ In "/"%char d).
  { intros d D. destruct D as [M|M C S0|c M C R S0|c M C R S0]; [exact NU|exact NU|apply NR; exact R|]. intro J. apply in_app_or in J. destruct J as [J|J]; [exact (NR _ R J)|]. cbn in J. destruct J as [J|J]; [discriminate|auto]. }
  assert (X : ~ In "/"%char n /\ length n <= 80).
  { destruct I as [(d & D & [G|G L|a0 b0 G L Q La])|[[_ ->]|[_ ->]]].
    - destruct (HH d). split; [assumption|lia].
    - split; [apply D1; exact D|exact L].
    - destruct (HH d) as [L2 N2]. split; [|rewrite !app_length; cbn [length]; change (length (lit "_")) with 1; lia]. intro J. apply in_app_or in J. destruct J as [J|J]; [apply (D1 _ D); rewrite Q; apply in_or_app; auto|].
      cbn in J. destruct J as [J|J]; [discriminate|auto].
    - split; [cbn; intuition discriminate|cbn; lia].
    - split; [auto|cbn; lia]. }
  destruct X as [Nn Ln]. destruct (in_split _ _ SL) as (q1 & q2 & Q0).
  destruct (rsplit "/"%char (p_prefix p)) as [[a' r]|] eqn:R; [|apply rsplit_none in R; contradiction]. apply rsplit_some in R. destruct R as [Q Nr].
  assert (Y : rsplit "/"%char (i_abs x) = Some (a', r ++ n)%list).
  { apply rsplit_some. split; [rewrite A, Q, <- app_assoc; reflexivity|]. intro J. apply in_app_or in J. tauto. }
  assert (Z0 : rsplit "/"%char (i_abs x) = Some (a, i_name x)) by (apply rsplit_some; split; [rewrite B, Pa, <- app_assoc; reflexivity|exact N]).
  rewrite Y in Z0. injection Z0 as -> Hn. exists r, n. split; [rewrite Pa, Q, <- app_assoc; reflexivity|]. split; [exact Nr|]. split; [symmetry; exact Hn|exact Ln].
Qed.
(** Two users of the same directory (and, if contexts count, in the same context) share an instance only if the entry is shared, or the
    hash has a collision, or one of the names is made up to look like the shortened form of another. *)
Theorem ns_users_apart : forall H gen ctxt raw u1 u2 p x, (forall d, length (H d) = 32) -> In "/"%char (p_prefix p) -> p_shared p = false -> p_method p <> TMPDIR -> p_method p <> TMPFS ->
  poly_name H gen ctxt PAM_SUCCESS raw u1 p = Ok (PAM_SUCCESS, Some x) -> poly_name H gen ctxt PAM_SUCCESS raw u2 p = Ok (PAM_SUCCESS, Some x) ->
  u1 = u2 \/ (exists d1 d2, d1 <> d2 /\ H d1 = H d2) \/
  (gen = false /\ exists d d' a, (differs ctxt raw u1 p d /\ differs ctxt raw u2 p d' \/ differs ctxt raw u2 p d /\ differs ctxt raw u1 p d') /\
     80 < length d /\ length a = 47 /\ d' = (a ++ lit "_" ++ H d)%list).
Proof.
  intros H gen ctxt raw u1 u2 p x L32 SL Sh N1 N2 P1 P2.
  apply (ns_instance H gen ctxt raw u1 p L32 SL) in P1. apply (ns_instance H gen ctxt raw u2 p L32 SL) in P2.
  destruct P1 as (n1 & I1 & (A1 & _)). destruct P2 as (n2 & I2 & (A2 & _)). rewrite A1 in A2. apply app_inv_head in A2. subst n2.
  destruct I1 as [(d1 & D1 & S1)|[[X _]|[X _]]]; [|congruence|congruence]. destruct I2 as [(d2 & D2 & S2)|[[X _]|[X _]]]; [|congruence|congruence].
  assert (INJ : d1 = d2 -> u1 = u2).
  { clear S1 S2. intro E. destruct D1 as [M|M C S0|c M C R S0|c M C R S0]; destruct D2 as [M'|M' C' S0'|c' M' C' R' S0'|c' M' C' R' S0']; try exact E; try congruence; try (intuition congruence).
    rewrite R' in R. injection R as ->. apply app_inv_head in E. injection E as E. exact E. }
  assert (DEC : d1 = d2 \/ d1 <> d2) by (destruct (list_eq_dec ascii_dec d1 d2); auto). destruct DEC as [DE|DN]; [left; auto|right].
  remember n1 as m1 eqn:E1 in S1. remember n1 as m2 eqn:E2 in S2. clear INJ A1.
  destruct S1 as [G1|G1 B1|a1 b1 G1 B1 Q1 La1]; destruct S2 as [G2|G2 B2|a2 b2 G2 B2 Q2 La2]; try congruence.
  - left. exists d1, d2. split; [exact DN|congruence].
  - right. split; [exact G1|]. exists d2, d1, a2. split; [right; auto|]. split; [exact B2|]. split; [exact La2|]. congruence.
  - right. split; [exact G1|]. exists d1, d2, a1. split; [left; auto|]. split; [exact B1|]. split; [exact La1|]. congruence.
  - left. exists d1, d2. split; [exact DN|]. assert (E : (a1 ++ lit "_" ++ H d1 = a2 ++ lit "_" ++ H d2)%list) by congruence. assert (X : a1 = a2 /\ (lit "_" ++ H d1 = lit "_" ++ H d2)%list).
    { clear - E La1 La2. rewrite <- La2 in La1. clear La2. revert a2 La1 E. induction a1 as [|y a1 IH]; intros [|z a2] La E; try discriminate; [auto|]. injection La as La. injection E as -> E. destruct (IH _ La E) as [-> X]. auto. }
    destruct X as [_ X]. apply app_inv_head in X. exact X.
Qed.

(** ** The check of a path *)
(** A directory of root's that others may not write to, or where they may only delete what is theirs. *)
Definition rootdir (x : option (kind * Z * Z)) : Prop := exists m, x = Some (KDir, 0%Z, m) /\ (Z.testbit m 4 = false /\ Z.testbit m 1 = false \/ Z.testbit m 9 = true).
Definition segment_safe (lstat stat : cstr -> option (kind * Z * Z)) (a : cstr) : Prop :=
  rootdir (lstat a) \/ (exists m, lstat a = Some (KLink, 0%Z, m)) /\ rootdir (stat a).
Lemma land18 : forall m, Z.land m 18 = 0%Z <-> Z.testbit m 4 = false /\ Z.testbit m 1 = false.
Proof.
  intro m. split.
  - intro E. assert (X : forall k, Z.testbit (Z.land m 18) k = false) by (intro k; rewrite E; apply Z.testbit_0_l).
    split; [specialize (X 4%Z)|specialize (X 1%Z)]; rewrite Z.land_spec in X; cbn in X; rewrite andb_true_r in X; exact X.
  - intros [A C]. apply Z.bits_inj'. intros k K. rewrite Z.land_spec, Z.testbit_0_l.
    destruct (Z.eq_dec k 4) as [->|N4]; [rewrite A; reflexivity|]. destruct (Z.eq_dec k 1) as [->|N1]; [rewrite C; reflexivity|].
    replace (Z.testbit 18 k) with false; [apply andb_false_r|]. destruct (Z_lt_ge_dec k 5) as [L|G].
    + assert (Y : (k = 0 \/ k = 2 \/ k = 3)%Z) by lia. destruct Y as [Y|[Y|Y]]; rewrite Y; reflexivity.
    + symmetry. apply Z.bits_above_log2; cbn; lia.
Qed.
Lemma land512 : forall m, Z.land m 512 = 0%Z <-> Z.testbit m 9 = false.
Proof.
  intro m. split.
  - intro E. assert (X : Z.testbit (Z.land m 512) 9 = false) by (rewrite E; apply Z.testbit_0_l). rewrite Z.land_spec in X. cbn in X. rewrite andb_true_r in X. exact X.
  - intro A. apply Z.bits_inj'. intros k K. rewrite Z.land_spec, Z.testbit_0_l. destruct (Z.eq_dec k 9) as [->|N]; [rewrite A; reflexivity|].
    replace (Z.testbit 512 k) with false; [apply andb_false_r|]. symmetry. change 512%Z with (2 ^ 9)%Z. apply Z.pow2_bits_false. lia.
Qed.
Lemma segment_iff : forall lstat stat a, segment_ok lstat stat a = true <-> segment_safe lstat stat a.
Proof.
  intros lstat stat a. unfold segment_ok, segment_safe.
  assert (X : forall o, match o with Some (KDir, u, m) => (u =? 0)%Z && ((Z.land m 18 =? 0)%Z || negb (Z.land m 512 =? 0)%Z) | _ => false end = true <-> rootdir o).
  { intros [[[k u] m]|]; [|split; [discriminate|intros (m & Q & _); discriminate]]. unfold rootdir. destruct k.
    - rewrite andb_true_iff, orb_true_iff, negb_true_iff, !Z.eqb_eq, Z.eqb_neq, land18, land512. split.
      + intros [-> [M|M]]; exists m; (split; [reflexivity|]); [left; exact M|right; destruct (Z.testbit m 9); [reflexivity|congruence]].
      + intros (m' & [= -> ->] & [M|M]); (split; [reflexivity|]); [left; exact M|right; congruence].
    - split; [discriminate|intros (m' & Q & _); discriminate].
    - split; [discriminate|intros (m' & Q & _); discriminate]. }
  rewrite X. clear X. destruct (lstat a) as [[[[| |] u] m]|].
  - split; [auto|]. intros [H|[(m' & Q) _]]; [exact H|discriminate].
  - destruct (Z.eqb_spec u 0) as [->|N].
    + split; [intro H; right; eauto|]. intros [(m' & Q & _)|[_ H]]; [discriminate|exact H].
    + split; [intros (m' & Q & _); discriminate|]. intros [(m' & Q & _)|[(m' & Q) _]]; [discriminate|congruence].
  - split; [intros (m' & Q & _); discriminate|]. intros [(m' & Q & _)|[(m' & Q) _]]; discriminate.
  - split; [intros (m' & Q & _); discriminate|]. intros [(m' & Q & _)|[(m' & Q) _]]; discriminate.
Qed.
Lemma app_slash : forall (a b x y : cstr), (a ++ "/"%char :: b = x ++ "/"%char :: y)%list -> ~ In "/"%char y -> (x = a /\ y = b) \/ exists b', x = (a ++ "/"%char :: b')%list.
Proof.
  induction a as [|c a IH]; intros b x y E N.
  - destruct x as [|d x]; [injection E as <-; left; auto|]. injection E as <- E. right. exists x. reflexivity.
  - destruct x as [|d x].
    + injection E as -> E. exfalso. apply N. rewrite <- E. apply in_or_app. right. left. reflexivity.
    + injection E as <- E. destruct (IH _ _ _ E N) as [[-> ->]|(b' & ->)]; [left; auto|right; exists b'; reflexivity].
Qed.
Lemma safe_loop_iff : forall lstat stat n dir, length dir < n -> (exists x, safe_loop n lstat stat dir = Ok x) /\
  (safe_loop n lstat stat dir = Ok true <-> (In "/"%char dir -> segment_safe lstat stat dir) /\ forall a b, dir = (a ++ "/"%char :: b)%list -> In "/"%char a -> segment_safe lstat stat a).
Proof.
  intros lstat stat. induction n as [|n IH]; intros dir L; [lia|]. cbn [safe_loop]. destruct (rsplit "/"%char dir) as [[x y]|] eqn:R.
  - apply rsplit_some in R. destruct R as [-> N]. assert (Lx : length x < n) by (rewrite app_length in L; cbn [length] in L; lia). destruct (IH x Lx) as [[z Z0] I].
    destruct (segment_ok lstat stat (x ++ "/"%char :: y)) eqn:S0.
    + apply segment_iff in S0. split; [eauto|]. rewrite I. split.
      * intros [A B]. split; [auto|]. intros a b E Ia. symmetry in E. destruct (app_slash _ _ _ _ E N) as [[-> ->]|(b' & ->)]; [auto|]. exact (B a b' eq_refl Ia).
      * intros [_ B]. split; [apply (B x y eq_refl)|]. intros a b ->. apply (B a (b ++ "/"%char :: y)%list). rewrite <- app_assoc. reflexivity.
    + split; [eauto|]. split; [discriminate|]. intros [A _]. assert (I2 : In "/"%char (x ++ "/"%char :: y)) by (apply in_or_app; right; left; reflexivity). apply A in I2. apply segment_iff in I2. congruence.
  - apply rsplit_none in R. split; [eauto|]. split; [|reflexivity]. intros _. split; [tauto|]. intros a b ->. exfalso. apply R. apply in_or_app. right. left. reflexivity.
Qed.
(** A path is taken to be safe exactly if every directory on it, but the root and the last, is. *)
Theorem ns_safe_path : forall lstat stat path,
  check_safe_path lstat stat path = Ok true <-> exists q, stripped path q /\ (exists r, q = "/"%char :: r) /\ forall a b, q = (a ++ "/"%char :: b)%list -> a <> [] -> segment_safe lstat stat a.
Proof.
  intros lstat stat path. unfold check_safe_path. destruct path as [|c path]; [split; [discriminate|]; intros (q & [[_ ->]|(x & r & k & Q & _)] & (r2 & E) & _); discriminate|].
  destruct (Ascii.eqb_spec c "/"%char) as [->|D]; cbn [negb].
  2:{ split; [discriminate|]. intros (q & [[Q _]|(x & r & k & Q & _ & ->)] & (r2 & E) & _); [discriminate|]. injection Q as -> _. congruence. }
  pose proof (proj1 (stripped_iff ("/"%char :: path) _) eq_refl) as SP.
  assert (SH : exists r, strip_slashes ("/"%char :: path) = "/"%char :: r) by (unfold strip_slashes; eauto).
  assert (U : forall q, stripped ("/"%char :: path) q -> q = strip_slashes ("/"%char :: path)) by (intros q Hq; symmetry; apply stripped_iff; exact Hq).
  destruct SH as [r SH]. rewrite SH in *. clear SH. destruct (rsplit "/"%char ("/"%char :: r)) as [[x y]|] eqn:R.
  2:{ apply rsplit_none in R. exfalso. apply R. left. reflexivity. }
  apply rsplit_some in R. destruct R as [Q N]. destruct (safe_loop_iff lstat stat (S (length x)) x (Nat.lt_succ_diag_r _)) as [_ I]. rewrite I. clear I.
  assert (HX : x <> [] -> In "/"%char x) by (intro X0; destruct x as [|x0 x1]; [congruence|]; injection Q as <- _; left; reflexivity).
  assert (HP : forall a b, x = (a ++ "/"%char :: b)%list -> a <> [] -> In "/"%char a).
  { intros a b E A0. destruct a as [|a0 a1]; [congruence|]. rewrite E in Q. injection Q as <- _. left. reflexivity. }
  split.
  - intros [A B]. exists ("/"%char :: r). split; [exact SP|]. split; [eauto|]. intros a b E A0. rewrite Q in E. symmetry in E. destruct (app_slash _ _ _ _ E N) as [[-> ->]|(b' & E')]; [auto|]. apply (B a b' E'). apply (HP a b' E' A0).
  - intros (q & Sq & _ & B). apply U in Sq. subst q. split.
    + intro Ix. apply (B x y Q). intros ->. destruct Ix.
    + intros a b -> Ia. apply (B a (b ++ "/"%char :: y)%list); [rewrite Q, <- app_assoc; reflexivity|]. intros ->. destruct Ia.
Qed.
(** ** The root mount *)
(** A line of mountinfo for the root, and whether its first optional field makes it shared. *)
Definition root_line (line : cstr) (shared : bool) : Prop :=
  exists w0 w1 w2 w3 w5 w6 rest, words (lit " ") (cut line) (w0 :: w1 :: w2 :: w3 :: lit "/" :: w5 :: w6 :: rest) /\ (shared = true <-> exists r, w6 = (lit "shared:" ++ r)%list).
(** The last line for the root counts. *)
Theorem ns_root_shared : forall f, latest root_line (lines_of f) false (root_shared (Some f)) /\ root_shared None = false.
Proof.
  intro f. split; [|reflexivity]. unfold root_shared. apply (latest_in root_line (fun rv line => mount_line (cut line) rv) (fun x => x) (fun _ => True) (lines_of f)); [|exact I].
  intros t line _ _. split; [exact I|]. unfold mount_line.
  assert (NO : (forall w0 w1 w2 w3 w5 w6 rest, strtoks (lit " ") (cut line) <> w0 :: w1 :: w2 :: w3 :: lit "/" :: w5 :: w6 :: rest) -> forall y, ~ root_line line y).
  { intros X y (w0 & w1 & w2 & w3 & w5 & w6 & rest & W & _). apply words_strtoks in W. destruct (X _ _ _ _ _ _ _ W). }
  pose proof (strtoks_words (lit " ") (cut line)) as W. destruct (strtoks (lit " ") (cut line)) as [|w0 [|w1 [|w2 [|w3 [|w4 rest]]]]]; try (right; split; [apply NO; discriminate|reflexivity]).
  destruct (streq w4 (lit "/")) eqn:E4; cbn [negb].
  2:{ right. split; [apply NO; intros; intros [= _ _ _ _ Q _]; rewrite Q, streq_refl in E4; discriminate|reflexivity]. }
  apply streq_eq in E4. subst w4. destruct rest as [|w5 [|w6 rest]]; try (right; split; [apply NO; discriminate|reflexivity]).
  left. exists w0, w1, w2, w3, w5, w6, rest. split; [exact W|]. destruct (skip_prefix (lit "shared:") w6) as [r|] eqn:K.
  - split; [|reflexivity]. intros _. exists r. apply skip_prefix_some. exact K.
  - split; [discriminate|]. intros (r & Q). apply (proj2 (skip_prefix_some _ _ _)) in Q. congruence.
Qed.
(** ** The users *)
(** Without a remote user the data of user and caller is filled in, names cut to 255 characters; with one, the buffer for the name is read
    before anything was written to it. *)
Theorem ns_user_data : forall pw pwuid user ruser,
  (get_user_data pw pwuid user ruser = UB <-> exists u x c r, user = Some u /\ pw u = Some x /\ ruser = Some (c :: r)) /\
  (forall d, get_user_data pw pwuid user ruser = Ok (PAM_SUCCESS, Some d) <-> exists u n name g, user = Some u /\ pw u = Some (n, u_uid d, u_gid d) /\ u_user d = firstn 255 u /\
     (ruser = None \/ ruser = Some []) /\ pwuid = Some (name, u_ruid d, g) /\ u_ruser d = firstn 255 name).
Proof.
  intros pw pwuid user ruser.
  assert (SC : forall s, strncat (Some []) s = Ok (firstn 255 s)).
  { intro s. unfold strncat, LOGIN_NAME_MAX. cbn [app]. change (256 - 1) with 255. pose proof (firstn_le_length 255 s) as L. destruct (Nat.ltb_spec (length (firstn 255 s)) 256); [reflexivity|]. rewrite firstn_length in *. lia. }
  unfold get_user_data. destruct user as [u|].
  2:{ split; [split; [discriminate|intros (? & ? & ? & ? & Q & _); discriminate]|]. intro d. split; [discriminate|intros (? & ? & ? & ? & Q & _); discriminate]. }
  destruct (pw u) as [[[n uid] gid]|] eqn:PU.
  2:{ split; [split; [discriminate|intros (u' & x & ? & ? & [= <-] & Q & _); congruence]|]. intro d. split; [discriminate|intros (u' & ? & ? & ? & [= <-] & Q & _); congruence]. }
  rewrite SC. cbn [bind].
  assert (NOR : forall pwd : option (cstr * Z * Z), match pwd with None => Ok (PAM_USER_UNKNOWN, None) | Some (name, ruid, _) => bind (strncat (Some []) name) (fun ru => Ok (PAM_SUCCESS, Some (mkUd (firstn 255 u) uid gid ru ruid))) end
     = Ok match pwd with None => (PAM_USER_UNKNOWN, None) | Some (name, ruid, _) => (PAM_SUCCESS, Some (mkUd (firstn 255 u) uid gid (firstn 255 name) ruid)) end).
  { intros [[[name ruid] g]|]; [rewrite SC; reflexivity|reflexivity]. }
  assert (RES : forall d, Ok match pwuid with None => (PAM_USER_UNKNOWN, None) | Some (name, ruid, _) => (PAM_SUCCESS, Some (mkUd (firstn 255 u) uid gid (firstn 255 name) ruid)) end = Ok (PAM_SUCCESS, Some d) <->
     exists u' n' name g, Some u = Some u' /\ pw u' = Some (n', u_uid d, u_gid d) /\ u_user d = firstn 255 u' /\ pwuid = Some (name, u_ruid d, g) /\ u_ruser d = firstn 255 name).
  { intro d. split.
    - destruct pwuid as [[[name ruid] g]|]; [|discriminate]. intros [= <-]. exists u, n, name, g. auto.
    - intros (u' & n' & name & g & [= <-] & P & Q & -> & R). rewrite PU in P. injection P as -> -> ->. destruct d as [d1 d2 d3 d4 d5]. cbn in *. subst. reflexivity. }
  destruct ruser as [[|c r]|].
  - cbn [bind]. rewrite NOR. split; [split; [discriminate|intros (? & ? & ? & ? & _ & _ & Q); discriminate]|]. intro d. rewrite RES. split; [intros (u' & n' & name & g & A & B & C & D); exists u', n', name, g; tauto|intros (u' & n' & name & g & A & B & C & _ & D); exists u', n', name, g; tauto].
  - cbn. split; [split; [intros _; exists u, (n, uid, gid), c, r; auto|reflexivity]|]. intro d. split; [discriminate|]. intros (? & ? & ? & ? & _ & _ & _ & [Q|Q] & _); discriminate.
  - cbn [bind]. rewrite NOR. split; [split; [discriminate|intros (? & ? & ? & ? & _ & _ & Q); discriminate]|]. intro d. rewrite RES. split; [intros (u' & n' & name & g & A & B & C & D); exists u', n', name, g; tauto|intros (u' & n' & name & g & A & B & C & _ & D); exists u', n', name, g; tauto].
Qed.

(** ** Examples *)
Definition H0 (s : cstr) : cstr := repeat (match s with [] => "0"%char | c :: _ => c end) 32.
Definition entry_of (m : polymethod) (shared : bool) (prefix : cstr) : poly := mkPoly (lit "/tmp") (lit "/tmp") prefix m [] false false false shared false false None None 0 0 0 0.
Example ns_instance_example :
  poly_name H0 false false PAM_SUCCESS None (lit "joe") (entry_of USER false (lit "/tmp-inst/i-")) = Ok (PAM_SUCCESS, Some (mkPaths (lit "/tmp-inst/i-joe") (lit "/tmp-inst/") (lit "i-joe"))) /\
  poly_name H0 false true PAM_SUCCESS (Some (lit "u:r:t")) (lit "joe") (entry_of LEVEL false (lit "/i/")) = Ok (PAM_SUCCESS, Some (mkPaths (lit "/i/u:r:t_joe") (lit "/i/") (lit "u:r:t_joe"))) /\
  poly_name H0 false false PAM_SUCCESS None (lit "joe") (entry_of CONTEXT true (lit "/i/")) = Ok (PAM_IGNORE, None) /\
  poly_name H0 true false PAM_SUCCESS None (lit "joe") (entry_of USER false (lit "/i/")) = Ok (PAM_SUCCESS, Some (mkPaths (lit "/i/" ++ repeat "j"%char 32) (lit "/i/") (repeat "j"%char 32))) /\
  (exists x, poly_name H0 false false PAM_SUCCESS None (repeat "a"%char 81) (entry_of USER false (lit "/i/")) = Ok (PAM_SUCCESS, Some x) /\ length (i_name x) = 80) /\
  poly_name H0 false false PAM_SUCCESS None (lit "joe") (entry_of USER false (lit "inst")) = UB.
Proof. repeat split; try (vm_compute; reflexivity). eexists. split; vm_compute; reflexivity. Qed.
Example ns_instance_parent_example : exists H x, (forall d : cstr, length (H d : cstr) = 32 /\ ~ In "/"%char (H d)) /\ ~ In "/"%char (lit "joe") /\ In "/"%char (p_prefix (entry_of USER false (lit "/inst/i-"))) /\
  poly_name H true false PAM_SUCCESS None (lit "joe") (entry_of USER false (lit "/inst/i-")) = Ok (PAM_SUCCESS, Some x) /\ i_parent x = lit "/inst/" /\ i_name x = (lit "i-" ++ repeat "0"%char 32)%list.
Proof.
  exists (fun _ => repeat "0"%char 32). eexists. split; [intro d; split; [apply repeat_length|intro I; apply repeat_spec in I; discriminate]|].
  split; [cbn; intuition discriminate|]. split; [left; reflexivity|]. split; [vm_compute; reflexivity|]. split; reflexivity.
Qed.
Example ns_users_apart_example :
  (forall d, length (H0 d) = 32) /\ In "/"%char (p_prefix (entry_of USER false (lit "/i/"))) /\
  (exists x, poly_name H0 false false PAM_SUCCESS None (lit "joe") (entry_of USER false (lit "/i/")) = Ok (PAM_SUCCESS, Some x)) /\
  (forall d, ~ In "/"%char d -> ~ In "/"%char (H0 d)).
Proof.
  split; [intro d; apply repeat_length|]. split; [left; reflexivity|]. split; [eexists; vm_compute; reflexivity|].
  intros [|c d] N I; apply repeat_spec in I; [discriminate|]. apply N. left. symmetry. exact I.
Qed.
Definition lstat0 (a : cstr) : option (kind * Z * Z) :=
  if streq a (lit "/tmp") then Some (KDir, 0, 1023)%Z else if streq a (lit "/home") then Some (KLink, 0, 511)%Z else if streq a (lit "/home/joe") then Some (KDir, 1000, 448)%Z else None.
Definition stat0 (a : cstr) : option (kind * Z * Z) := if streq a (lit "/home") then Some (KDir, 0, 493)%Z else lstat0 a.
Example ns_safe_path_example :
  check_safe_path lstat0 stat0 (lit "/home/joe") = Ok true /\ check_safe_path lstat0 stat0 (lit "/home/joe/tmp/") = Ok false /\ check_safe_path lstat0 stat0 (lit "/") = Ok true /\
  check_safe_path lstat0 stat0 (lit "/opt/x") = Ok false /\ check_safe_path lstat0 stat0 (lit "home/joe") = Ok false.
Proof. vm_compute. auto. Qed.
Example ns_root_shared_example :
  root_shared (Some (lit "21 1 8:1 / / rw shared:1 - ext4 /dev/sda1 rw" ++ [c_nl] ++ lit "22 21 0:5 / /dev rw shared:2 - x x x" ++ [c_nl])%list) = true /\
  root_shared (Some (lit "21 1 8:1 / / rw shared:1 - ext4 a rw" ++ [c_nl] ++ lit "23 21 8:1 / / rw - ext4 a rw" ++ [c_nl])%list) = false.
Proof. vm_compute. auto. Qed.
Definition pw0 (n : cstr) : option (cstr * Z * Z) := if streq n (lit "joe") then Some (n, 1000, 100)%Z else if streq n (lit "eve") then Some (n, 1001, 100)%Z else None.
Example ns_user_data_example : get_user_data pw0 (pw0 (lit "eve")) (Some (lit "joe")) None = Ok (PAM_SUCCESS, Some (mkUd (lit "joe") 1000 100 (lit "eve") 1001)) /\
  get_user_data pw0 None (Some (lit "tom")) None = Ok (PAM_USER_UNKNOWN, None) /\ get_user_data pw0 None None None = Ok (PAM_SESSION_ERR, None).
Proof. vm_compute. auto. Qed.
(** Two users in two contexts may share an instance: nothing keeps context and name apart in the name of the instance. *)
Theorem ns_contexts_apart_refuted : exists c1 u1 c2 u2 x, u1 <> u2 /\ c1 <> c2 /\
  poly_name H0 false true PAM_SUCCESS (Some c1) u1 (entry_of CONTEXT false (lit "/i/")) = Ok (PAM_SUCCESS, Some x) /\
  poly_name H0 false true PAM_SUCCESS (Some c2) u2 (entry_of CONTEXT false (lit "/i/")) = Ok (PAM_SUCCESS, Some x).
Proof.
  exists (lit "user_u:object_r:tmp_t"), (lit "x_joe"), (lit "user_u:object_r:tmp_t_x"), (lit "joe"). eexists. split; [discriminate|]. split; [discriminate|]. split; vm_compute; reflexivity.
Qed.
(** Against the comment above check_safe_path, directories that others may write to pass if they have the sticky bit. *)
Theorem ns_safe_path_sticky_refuted : exists lstat stat path a m, check_safe_path lstat stat path = Ok true /\ path = (a ++ lit "/x")%list /\ lstat a = Some (KDir, 0%Z, m) /\ Z.testbit m 1 = true.
Proof. exists lstat0, stat0, (lit "/tmp/x"), (lit "/tmp"), 1023%Z. vm_compute. auto. Qed.
(** With PAM_RUSER set, get_user_data appends to an uninitialised buffer. *)
Theorem ns_ruser_refuted : get_user_data pw0 (pw0 (lit "eve")) (Some (lit "joe")) (Some (lit "eve")) = UB.
Proof. vm_compute. reflexivity. Qed.

Print Assumptions ns_instance.
Print Assumptions ns_instance_parent.
Print Assumptions ns_users_apart.
Print Assumptions ns_safe_path.
Print Assumptions ns_root_shared.
Print Assumptions ns_user_data.
