(** C59, C60: pam_timestamp's sessions and authentications over the files, and pam_timestamp_check. *)
From Coq Require Import String Ascii List Arith NArith ZArith Bool Lia.
From Verif Require Import Base Num_Model Str_Model Hash_Spec Hash_Facts Sha1_Model Sha1_Props Timestamp_Model Stampname_Props.
Import ListNotations.
Local Open Scope Z_scope.

(** * Reading *)
Lemma firstn_plus : forall (l : list Z) a b, firstn (a + b) l = (firstn a l ++ firstn b (skipn a l))%list.
Proof. induction l as [|x l IH]; intros [|a] b; cbn [firstn skipn Nat.add app]; try reflexivity; [destruct b; reflexivity|rewrite IH; reflexivity]. Qed.
Lemma read_loop_some : forall n data cuts r, read_loop n data cuts = Some r -> r = firstn n data /\ (n <= length data)%nat.
Proof.
  intros n data cuts. revert n data. induction cuts as [|k cuts IH]; intros n data r H.
  - destruct n as [|n]; cbn [read_loop] in H; [injection H as <-; split; [reflexivity|lia]|]. destruct (Nat.leb_spec (S n) (length data)) as [L|L]; [injection H as <-; auto|discriminate].
  - destruct n as [|n]; cbn [read_loop] in H; [injection H as <-; split; [reflexivity|lia]|]. remember (S n) as m eqn:Em. destruct (firstn (Nat.min k m) data) as [|x l] eqn:F; [discriminate|].
    set (q := x :: l) in *. assert (LQ : length q = Nat.min (Nat.min k m) (length data)) by (rewrite <- F; apply firstn_length). destruct (read_loop (m - length q) (skipn (length q) data) cuts) as [t|] eqn:R; [|discriminate]. assert (H' : r = (q ++ t)%list) by (injection H as <-; reflexivity). subst r. clear H.
    apply IH in R. destruct R as [-> R]. rewrite skipn_length in R. split; [|lia].
    assert (Q : q = firstn (length q) data).
    { rewrite LQ, <- F. set (j := Nat.min k m) in *. clearbody j. destruct (Nat.le_ge_cases j (length data)) as [A|A]; [rewrite (Nat.min_l j _ A); reflexivity|]. rewrite (Nat.min_r j _ A), !firstn_all2 by lia. reflexivity. }
    clearbody q. replace m with (length q + (m - length q))%nat at 2 by lia. rewrite firstn_plus, <- Q. reflexivity.
Qed.
Lemma read_loop_all : forall cuts n data, Forall (fun k => k <> 0%nat) cuts -> (n <= length data)%nat -> read_loop n data cuts = Some (firstn n data).
Proof.
  intros cuts n data F L. assert (G : exists r, read_loop n data cuts = Some r).
  { revert n data L. induction F as [|k cuts K F IH]; intros n data L.
    - destruct n as [|n]; cbn [read_loop]; [eexists; reflexivity|]. rewrite (proj2 (Nat.leb_le _ _) L). eexists; reflexivity.
    - destruct n as [|n]; cbn [read_loop]; [eexists; reflexivity|]. remember (S n) as m eqn:Em. assert (LQ : length (firstn (Nat.min k m) data) = Nat.min k m) by (rewrite firstn_length; lia). destruct (firstn (Nat.min k m) data) as [|x l] eqn:E; [cbn in LQ; lia|].
      destruct (IH (m - length (x :: l))%nat (skipn (length (x :: l)) data)) as (r & R); [rewrite skipn_length; lia|]. rewrite R. eexists; reflexivity. }
  destruct G as (r & G). rewrite G. apply read_loop_some in G. destruct G as [-> _]. reflexivity.
Qed.

(** * The code *)
Lemma mac_result : forall mem key text, Forall octet key -> Forall octet text -> Z.of_nat (length key) < 2 ^ 32 -> Z.of_nat (length text) < 2 ^ 32 ->
  hmac_sha1_generate mem key text = Ok (if mem && (20 <=? length key)%nat then Some (HMAC_SHA1 key text) else None).
Proof.
  intros mem key text OK OT LK LT. destruct (Nat.leb_spec 20 (length key)) as [M|M]; [|rewrite andb_false_r; apply short_key_no_mac; exact M].
  pose proof (mac_is_hmac key text OK OT LK LT M) as H. destruct mem; [exact H|]. cbn [andb]. revert H. generalize (HMAC_SHA1 key text). intros h H. unfold hmac_sha1_generate in *. destruct (length key <? 20)%nat; [reflexivity|].
  repeat match goal with |- bind ?x _ = _ => destruct x; cbn [bind] in *; try discriminate end. reflexivity.
Qed.
Lemma octets_of_octet : forall s, Forall octet (octets_of s).
Proof. intro s. apply Forall_forall. intros x I. apply in_map_iff in I. destruct I as (c & <- & _). unfold octet. pose proof (N_ascii_bounded c). lia. Qed.
Lemma octets_of_inj : forall a b, octets_of a = octets_of b -> a = b.
Proof.
  induction a as [|x a IH]; intros [|y b] E; try discriminate; [reflexivity|]. cbn in E. injection E as E1 E2. f_equal; [|apply IH; exact E2].
  apply (f_equal Z.to_N) in E1. rewrite !N2Z.id in E1. apply (f_equal ascii_of_N) in E1. rewrite !ascii_N_embedding in E1. exact E1.
Qed.
Lemma time_octets_le : forall t, time_octets t = octets_le 8 t.
Proof.
  intro t. unfold time_octets. cbn [map seq octets_le]. rewrite !land255. rewrite !Z.shiftr_div_pow2 by lia. rewrite !Z.div_div by lia. change (2 ^ (8 * Z.of_nat 0)) with 1. rewrite Z.div_1_r. reflexivity.
Qed.
Lemma le_value : forall n t, fold_right (fun x v => x + 256 * v) 0 (octets_le n t) = t mod 256 ^ Z.of_nat n.
Proof.
  induction n as [|n IH]; intro t; cbn [octets_le fold_right]; [change (256 ^ Z.of_nat 0) with 1; rewrite Z.mod_1_r; reflexivity|]. rewrite IH, Nat2Z.inj_succ, Z.pow_succ_r by lia. rewrite Z.rem_mul_r by lia. reflexivity.
Qed.
Lemma time_back : forall t l, LONG_MIN <= t <= LONG_MAX -> time_of (octets_le 8 t ++ l) = t.
Proof.
  intros t l R. unfold time_of. rewrite firstn_app, octets_le_length. rewrite firstn_all2 by (rewrite octets_le_length; lia). rewrite Nat.sub_diag, firstn_O, app_nil_r, le_value. change (256 ^ Z.of_nat 8) with 18446744073709551616.
  unfold LONG_MIN, LONG_MAX in R. change (2 ^ 63) with 9223372036854775808. change (2 ^ 64) with 18446744073709551616. destruct (Z.lt_ge_cases t 0) as [N|N].
  - assert (E : t mod 18446744073709551616 = t + 18446744073709551616) by (symmetry; apply Z.mod_unique with (q := -1); lia). rewrite E. destruct (Z.ltb_spec (t + 18446744073709551616) 9223372036854775808); lia.
  - rewrite Z.mod_small by lia. destruct (Z.ltb_spec t 9223372036854775808); lia.
Qed.

(** * Sessions and authentications *)
(** The contents of a timestamp file: its own name, a NUL, the time in eight octets, the code of all that under the key. *)
Definition stamped (p : cstr) (t : Z) : list Z := map (fun c => Z.of_N (N_of_ascii c)) p ++ 0 :: octets_le 8 t.
Definition stamp (key : list Z) (p : cstr) (t : Z) : list Z := stamped p t ++ HMAC_SHA1 key (stamped p t).
(** The time the file vouches for is good. *)
Definition in_window (i t now : Z) : Prop := - (2 * i) < now - t < i.
(** A call of pam_sm_open_session: by whom, when, with what result. *)
Record call := mkCall { c_env : env; c_time : Z; c_rc : Z }.
Definition octet_file (f : file) : Prop := Forall octet (f_data f) /\ Z.of_nat (length (f_data f)) < 2 ^ 32.
Definition time_t (t : Z) : Prop := LONG_MIN <= t <= LONG_MAX.
(** The files that can come about when nobody but the module and pam_timestamp_check writes to the directory (files may be
    removed by anyone): at first there are none but perhaps the key. *)
Inductive reach : files -> list call -> Prop :=
| ReachStart : forall fs, (forall p, p <> TIMESTAMPKEY -> fs p = None) -> (forall f, fs TIMESTAMPKEY = Some f -> octet_file f) -> reach fs []
| ReachOpen : forall fs L e o rc fs', reach fs L -> Forall octet (c_random (k_create (o_key o))) -> time_t (o_now o) -> pam_sm_open_session e o fs = Ok (rc, fs') -> reach fs' (mkCall e (o_now o) rc :: L)
| ReachAuth : forall fs L e a rc fs', reach fs L -> Forall octet (c_random (k_create (a_key a))) -> pam_sm_authenticate e a fs = Ok (rc, fs') -> reach fs' L
| ReachCheck : forall fs L m n fs', reach fs L -> check_main m fs = Ok (n, fs') -> reach fs' L
| ReachRemove : forall fs L p, reach fs L -> reach (put_file fs p None) L.

Lemma put_same : forall fs p f, put_file fs p f p = f.
Proof. intros. unfold put_file. rewrite streq_refl. reflexivity. Qed.
Lemma put_other : forall fs p q f, q <> p -> put_file fs p f q = fs q.
Proof. intros fs p q f N. unfold put_file. destruct (streq p q) eqn:E; [apply streq_eq in E; congruence|reflexivity]. Qed.
Lemma firstn_octets : forall n l, Forall octet l -> Forall octet (firstn n l).
Proof. intros n l O. rewrite <- (firstn_skipn n l) in O. apply Forall_app in O. tauto. Qed.
(** Reading the key changes nothing but the key file, and leaves an existing one. *)
Lemma key_read_effect : forall k fs fs' r, hmac_key_read k fs = (fs', r) -> Forall octet (c_random (k_create k)) -> (forall f, fs TIMESTAMPKEY = Some f -> octet_file f) ->
  (forall p, p <> TIMESTAMPKEY -> fs' p = fs p) /\ (forall f, fs TIMESTAMPKEY = Some f -> fs' TIMESTAMPKEY = Some f) /\ (forall f, fs' TIMESTAMPKEY = Some f -> octet_file f) /\
  (forall key, r = Some key -> exists f, fs' TIMESTAMPKEY = Some f /\ key = f_data f).
Proof.
  intros k fs fs' r H RO OF. unfold hmac_key_read in H.
  assert (C : (forall p, p <> TIMESTAMPKEY -> hmac_key_create (k_create k) fs p = fs p) /\ (forall f, hmac_key_create (k_create k) fs TIMESTAMPKEY = Some f -> fs TIMESTAMPKEY = Some f \/ octet_file f)).
  { unfold hmac_key_create. cbv zeta. assert (KO : Forall octet (firstn 64 (c_random (k_create k)))) by (apply firstn_octets; exact RO). pose proof (firstn_le_length 64 (c_random (k_create k))) as L2. remember (firstn 64 (c_random (k_create k))) as key eqn:EK. clear EK. destruct (c_open (k_create k)); cbn [negb]; [|auto]. destruct (c_chown (k_create k)); cbn [negb].
    - split; [intros p N; apply put_other; exact N|]. intros f E. rewrite put_same in E. injection E as <-. right. unfold octet_file. cbn [f_data]. destruct (_ || _); [split; [constructor|reflexivity]|].
      split; [apply firstn_octets; exact KO|]. rewrite firstn_length. change (2 ^ 32) with 4294967296. clear - L2. lia.
    - split; [intros p N; apply put_other; exact N|]. intros f E. rewrite put_same in E. injection E as <-. right. split; [constructor|reflexivity]. }
  destruct C as [C1 C2].
  assert (READ : forall fs1 opened, match fs1 TIMESTAMPKEY with
      | Some f => if opened && k_stat k && k_mem k then (fs1, read_loop (length (f_data f)) (f_data f) (k_cuts k)) else (fs1, None) | None => (fs1, None) end = (fs', r) -> fs' = fs1 /\ forall key, r = Some key -> exists f, fs1 TIMESTAMPKEY = Some f /\ key = f_data f).
  { intros fs1 op E. destruct (fs1 TIMESTAMPKEY) as [f|]; [|injection E as <- <-; split; [reflexivity|discriminate]]. destruct (op && k_stat k && k_mem k); injection E as <- <-; [|split; [reflexivity|discriminate]].
    split; [reflexivity|]. intros key R. exists f. split; [reflexivity|]. apply read_loop_some in R. destruct R as [-> _]. apply firstn_all. }
  destruct (fs TIMESTAMPKEY) as [f|] eqn:K.
  - apply READ in H. destruct H as [-> H]. split; [auto|]. split; [intros f' E; congruence|]. split; [intros f' E; apply OF; congruence|exact H].
  - apply READ in H. destruct H as [-> H]. split; [exact C1|]. split; [discriminate|]. split; [|exact H]. intros f E. destruct (C2 f E) as [X|X]; [congruence|exact X].
Qed.
Lemma ok_pair : forall A B (a c : A) (b d : B), Ok (a, b) = Ok (c, d) -> a = c /\ b = d.
Proof. intros A B a c b d H. injection H as -> ->. auto. Qed.
Lemma generate_effect : forall k mem fs text fs' r, hmac_sha1_generate_file k mem fs text = Ok (fs', r) -> Forall octet (c_random (k_create k)) -> (forall f, fs TIMESTAMPKEY = Some f -> octet_file f) ->
  Forall octet text -> Z.of_nat (length text) < 2 ^ 32 ->
  (forall p, p <> TIMESTAMPKEY -> fs' p = fs p) /\ (forall f, fs TIMESTAMPKEY = Some f -> fs' TIMESTAMPKEY = Some f) /\ (forall f, fs' TIMESTAMPKEY = Some f -> octet_file f) /\
  (forall mac, r = Some mac -> exists f, fs' TIMESTAMPKEY = Some f /\ (20 <= length (f_data f))%nat /\ mac = HMAC_SHA1 (f_data f) text).
Proof.
  intros k mem fs text fs' r H RO OF OT LT. unfold hmac_sha1_generate_file in H. destruct (hmac_key_read k fs) as [fs1 key] eqn:R. pose proof (key_read_effect _ _ _ _ R RO OF) as (A & B & C & D). destruct key as [key|].
  - destruct (D key eq_refl) as (f & F & ->). destruct (C f F) as [O L]. rewrite mac_result in H by assumption. cbn [bind] in H. apply ok_pair in H. destruct H as [<- <-]. repeat (split; [assumption|]). intros mac M. exists f. split; [exact F|].
    destruct mem; cbn [andb] in M; [|discriminate M]. destruct (Nat.leb_spec 20 (length (f_data f))) as [X|X]; [|discriminate M]. split; [exact X|]. congruence.
  - injection H as <- <-. repeat (split; [assumption|]). discriminate.
Qed.
(** A key that is made comes from at least 64 random octets, and is a beginning of them. *)
Theorem key_from_random : forall k fs fs' r f, fs TIMESTAMPKEY = None -> hmac_key_read k fs = (fs', r) -> fs' TIMESTAMPKEY = Some f -> f_data f <> [] ->
  (64 <= length (c_random (k_create k)))%nat /\ (exists n, f_data f = firstn n (firstn 64 (c_random (k_create k)))) /\ f_uid f = 0 /\ f_gid f = 0.
Proof.
  intros k fs fs' r f N H F D. unfold hmac_key_read in H. rewrite N in H. cbv zeta in H.
  assert (E : fs' = hmac_key_create (k_create k) fs). { destruct (hmac_key_create (k_create k) fs TIMESTAMPKEY); [destruct (k_open2 k && k_stat k && k_mem k)|]; congruence. }
  subst fs'. unfold hmac_key_create in F. destruct (c_open (k_create k)); cbn [negb] in F; [|congruence]. destruct (c_chown (k_create k)); cbn [negb] in F; cbv zeta in F; rewrite put_same in F; [|injection F as <-; destruct (D eq_refl)].
  destruct (negb (c_rand (k_create k)) || negb (c_mem (k_create k)) || (length (firstn 64 (c_random (k_create k))) <? 64)%nat) eqn:C; injection F as <-; [destruct (D eq_refl)|].
  apply orb_false_iff in C. destruct C as (_ & C). apply Nat.ltb_ge in C. rewrite firstn_length in C. cbn [f_data f_uid f_gid]. split; [lia|]. split; [eexists; reflexivity|split; reflexivity].
Qed.
Lemma stamped_model : forall p t, (octets_of p ++ 0 :: time_octets t)%list = stamped p t.
Proof. intros p t. unfold stamped. rewrite time_octets_le. reflexivity. Qed.
Lemma stamped_octets : forall p t, Forall octet (stamped p t) /\ length (stamped p t) = (length p + 9)%nat.
Proof.
  intros p t. unfold stamped. split; [apply Forall_app; split; [apply (octets_of_octet p)|apply Forall_cons; [unfold octet; lia|apply octets_le_octet]]|]. rewrite app_length, map_length. cbn [length]. rewrite octets_le_length. lia.
Qed.
Lemma hmac_octets : forall k t, Forall octet (HMAC_SHA1 k t) /\ length (HMAC_SHA1 k t) = 20%nat.
Proof. intros k t. unfold HMAC_SHA1. apply sha1_octets. Qed.
Lemma stamp_octets : forall key p t, Forall octet (stamp key p t) /\ length (stamp key p t) = (length p + 29)%nat.
Proof.
  intros key p t. unfold stamp. destruct (stamped_octets p t) as [A B]. destruct (hmac_octets key (stamped p t)) as [C D]. split; [apply Forall_app; auto|]. rewrite app_length, B, D. lia.
Qed.
Lemma name_short : forall e p, get_timestamp_name e = Ok (Some p) -> Z.of_nat (length p) < 4096.
Proof. intros e p H. apply name_only in H. destruct H as (r & u & [d t _ _ _ _ _ _ _ L] & _). exact L. Qed.

(** What a session does to the files. *)
Lemma open_effect : forall e o fs rc fs', pam_sm_open_session e o fs = Ok (rc, fs') -> Forall octet (c_random (k_create (o_key o))) -> (forall f, fs TIMESTAMPKEY = Some f -> octet_file f) ->
  (rc <> 0 /\ (forall q, q <> TIMESTAMPKEY -> fs' q = fs q) /\ (forall f, fs TIMESTAMPKEY = Some f -> fs' TIMESTAMPKEY = Some f) /\ (forall f, fs' TIMESTAMPKEY = Some f -> octet_file f)) \/
  exists p kf fs1 f n, get_timestamp_name e = Ok (Some p) /\ (forall q, q <> TIMESTAMPKEY -> fs1 q = fs q) /\ (forall f, fs TIMESTAMPKEY = Some f -> fs1 TIMESTAMPKEY = Some f) /\ (forall f, fs1 TIMESTAMPKEY = Some f -> octet_file f) /\
    fs1 TIMESTAMPKEY = Some kf /\ (20 <= length (f_data kf))%nat /\
    fs' = put_file fs1 p (Some f) /\ f_mtime f = o_now o /\ f_data f = firstn n (stamp (f_data kf) p (o_now o)) /\ (f_reg f = match fs1 p with Some f0 => f_reg f0 | None => true end) /\
    ((rc = 0 /\ f_uid f = 0 /\ f_gid f = 0 /\ (length p + 29 <= n)%nat) \/ (rc = 14 /\ (n < length p + 29)%nat)).
Proof.
  intros e o fs rc fs' H RO OF. unfold pam_sm_open_session in H.
  destruct (get_timestamp_name e) as [[p|]| |] eqn:G; cbn [bind] in H; try discriminate.
  2: { injection H as <- <-. left. split; [discriminate|auto]. }
  destruct (mkdirs (o_mkdir o) [] p); cbn [negb] in H; [|injection H as <- <-; left; split; [discriminate|auto]].
  destruct (o_mem o); cbn [negb] in H; [|injection H as <- <-; left; split; [discriminate|auto]].
  cbv zeta in H. rewrite stamped_model in H. destruct (stamped_octets p (o_now o)) as [OT LT]. pose proof (name_short e p G) as LP.
  destruct (hmac_sha1_generate_file (o_key o) (o_macmem o) fs (stamped p (o_now o))) as [[fs1 mac]| |] eqn:M; cbn [bind] in H; try discriminate.
  destruct (generate_effect _ _ _ _ _ _ M RO OF OT) as (A & B & C & D); [lia|]. destruct mac as [mac|]; [|injection H as <- <-; left; split; [discriminate|auto]].
  destruct (D mac eq_refl) as (kf & K & KL & ->). change (stamped p (o_now o) ++ HMAC_SHA1 (f_data kf) (stamped p (o_now o)))%list with (stamp (f_data kf) p (o_now o)) in H.
  destruct (o_open o); cbn [negb] in H; [|injection H as <- <-; left; split; [discriminate|auto]]. right. destruct (stamp_octets (f_data kf) p (o_now o)) as [OS LS].
  set (f0 := match fs1 p with Some f => mkFile (f_uid f) (f_gid f) (f_reg f) [] (o_now o) | None => mkFile (o_uid o) (o_gid o) true [] (o_now o) end) in *.
  assert (F0 : f_mtime f0 = o_now o /\ f_data f0 = [] /\ f_reg f0 = match fs1 p with Some f0 => f_reg f0 | None => true end) by (unfold f0; destruct (fs1 p); auto). destruct F0 as (F1 & F2 & F3). clearbody f0.
  destruct (o_chown o); cbn [negb] in H; injection H as H1 H2; subst fs' rc.
  - exists p, kf, fs1, (mkFile 0 0 (f_reg f0) (firstn (o_written o) (stamp (f_data kf) p (o_now o))) (o_now o)), (o_written o). cbn [f_mtime f_data f_reg f_uid f_gid].
    repeat (split; [first [assumption|reflexivity]|]). rewrite LS. destruct (Nat.ltb_spec (o_written o) (length p + 29)) as [L|L]; [right; split; [reflexivity|exact L]|left; auto].
  - exists p, kf, fs1, f0, 0%nat. rewrite firstn_O. repeat (split; [first [assumption|reflexivity]|]). right. split; [reflexivity|lia].
Qed.

(** What an authentication does to the files, and when it succeeds. *)
Lemma auth_effect : forall e a fs rc fs', pam_sm_authenticate e a fs = Ok (rc, fs') -> Forall octet (c_random (k_create (a_key a))) -> (forall p f, fs p = Some f -> octet_file f) ->
  (forall q, q <> TIMESTAMPKEY -> fs' q = fs q) /\ (forall f, fs TIMESTAMPKEY = Some f -> fs' TIMESTAMPKEY = Some f) /\ (forall f, fs' TIMESTAMPKEY = Some f -> octet_file f) /\
  (rc = 0 -> exists p f r, get_timestamp_name e = Ok (Some p) /\ fs p = Some f /\ f_uid f = 0 /\ f_gid f = 0 /\ f_reg f = true /\ length (f_data f) = (length p + 29)%nat /\
     (exists kf, fs' TIMESTAMPKEY = Some kf /\ (20 <= length (f_data kf))%nat /\ f_data f = (firstn (length p + 9) (f_data f) ++ HMAC_SHA1 (f_data kf) (firstn (length p + 9) (f_data f)))%list) /\
     firstn (length p) (f_data f) = octets_of p /\ get_ruser e = Some r /\ check_login_time (a_utmp a) r (time_of (skipn (length p + 1) (f_data f))) = 0 /\
     timestamp_good (time_of (skipn (length p + 1) (f_data f))) (a_now a) (fold_left timeout_arg (e_args e) 300) = Ok 0).
Proof.
  intros e a fs rc fs' H RO OF. unfold pam_sm_authenticate in H. cbv zeta in H.
  assert (OFK : forall f, fs TIMESTAMPKEY = Some f -> octet_file f) by (intros f; apply OF).
  assert (T : forall x, x <> 0 -> Ok (x, fs) = Ok (rc, fs') -> (forall q, q <> TIMESTAMPKEY -> fs' q = fs q) /\ (forall f, fs TIMESTAMPKEY = Some f -> fs' TIMESTAMPKEY = Some f) /\ (forall f, fs' TIMESTAMPKEY = Some f -> octet_file f) /\ rc <> 0).
  { intros x N E. injection E as <- <-. auto. }
  assert (W : forall Q : Prop, (forall q, q <> TIMESTAMPKEY -> fs' q = fs q) /\ (forall f, fs TIMESTAMPKEY = Some f -> fs' TIMESTAMPKEY = Some f) /\ (forall f, fs' TIMESTAMPKEY = Some f -> octet_file f) /\ rc <> 0 ->
     (forall q, q <> TIMESTAMPKEY -> fs' q = fs q) /\ (forall f, fs TIMESTAMPKEY = Some f -> fs' TIMESTAMPKEY = Some f) /\ (forall f, fs' TIMESTAMPKEY = Some f -> octet_file f) /\ (rc = 0 -> Q)) by (intros Q (A & B & C & D); repeat (split; [assumption|]); contradiction).
  destruct (get_timestamp_name e) as [[p|]| |] eqn:G; cbn [bind] in H; try discriminate; [|apply W, (T 7); [discriminate|exact H]].
  destruct (fs p) as [f|] eqn:F; [|apply W, (T 7); [discriminate|exact H]].
  destruct (negb (a_open a) || negb (a_stat a)); [apply W, (T 7); [discriminate|exact H]|].
  destruct (Z.eqb_spec (f_uid f) 0) as [U|]; cbn [negb orb] in H; [|apply W, (T 7); [discriminate|exact H]].
  destruct (Z.eqb_spec (f_gid f) 0) as [GI|]; cbn [negb orb] in H; [|apply W, (T 7); [discriminate|exact H]].
  destruct (f_reg f) eqn:RG; cbn [negb] in H; [|apply W, (T 7); [discriminate|exact H]].
  destruct (length (f_data f) =? 0)%nat; [apply W, (T 7); [discriminate|exact H]|].
  destruct (Nat.eqb_spec (length (f_data f)) (length p + 1 + 8 + 20)) as [L|]; cbn [negb] in H; [|apply W, (T 7); [discriminate|exact H]].
  destruct (a_mem a); cbn [negb] in H; [|apply W, (T 5); [discriminate|exact H]].
  destruct (read_loop (length (f_data f)) (f_data f) (a_cuts a)) as [msg|] eqn:R; [|apply W, (T 7); [discriminate|exact H]]. apply read_loop_some in R. destruct R as [-> _]. rewrite firstn_all in H.
  destruct (OF p f F) as [OD LD]. replace (length p + 1 + 8)%nat with (length p + 9)%nat in * by lia.
  destruct (hmac_sha1_generate_file (a_key a) (a_macmem a) fs (firstn (length p + 9) (f_data f))) as [[fs1 mac]| |] eqn:M; cbn [bind] in H; try discriminate.
  destruct (generate_effect _ _ _ _ _ _ M RO OFK (firstn_octets _ _ OD)) as (A & B & C & D); [rewrite firstn_length; lia|].
  assert (T1 : forall x (Q : Prop), x <> 0 -> Ok (x, fs1) = Ok (rc, fs') -> (forall q, q <> TIMESTAMPKEY -> fs' q = fs q) /\ (forall f, fs TIMESTAMPKEY = Some f -> fs' TIMESTAMPKEY = Some f) /\ (forall f, fs' TIMESTAMPKEY = Some f -> octet_file f) /\ (rc = 0 -> Q)).
  { intros x Q N E. injection E as <- <-. repeat (split; [assumption|]). contradiction. }
  destruct mac as [mac|]; [|apply (T1 7); [discriminate|exact H]].
  destruct (list_eq_dec Z.eq_dec (octets_of p) (firstn (length p) (f_data f))) as [E1|]; cbn [negb orb] in H; [|apply (T1 7); [discriminate|exact H]].
  destruct (list_eq_dec Z.eq_dec mac (skipn (length p + 9) (f_data f))) as [E2|]; cbn [negb orb] in H; [|apply (T1 7); [discriminate|exact H]].
  destruct (get_ruser e) as [r|] eqn:GR; [|apply (T1 7); [discriminate|exact H]].
  destruct (Z.eqb_spec (check_login_time (a_utmp a) r (time_of (skipn (length p + 1) (f_data f)))) PAM_SUCCESS) as [LT|]; cbn [negb] in H; [|apply (T1 7); [discriminate|exact H]].
  destruct (timestamp_good _ _ _) as [g| |] eqn:TG; cbn [bind] in H; try discriminate. destruct (Z.eqb_spec g PAM_SUCCESS) as [->|]; [|apply (T1 7); [discriminate|exact H]].
  injection H as <- <-. repeat (split; [assumption|]). intros _. exists p, f, r. split; [reflexivity|]. repeat (split; [assumption|]). split; [lia|]. split; [|split; [symmetry; exact E1|]; split; [reflexivity|]; split; [exact LT|exact TG]].
  destruct (D mac eq_refl) as (kf & K & KL & EM). exists kf. split; [exact K|]. split; [exact KL|]. rewrite <- EM, E2. symmetry. apply firstn_skipn.
Qed.
Lemma check_effect : forall m fs n fs', check_main m fs = Ok (n, fs') -> fs' = fs \/ exists p, fs' = put_file fs p None.
Proof.
  intros m fs n fs' H. unfold check_main in H.
  repeat match type of H with
  | Ok (_, _) = Ok (_, _) => injection H as <- <-; first [left; reflexivity|right; eexists; reflexivity]
  | (if ?b then _ else _) = _ => destruct b
  | (let x := _ in _) = _ => cbv zeta in H
  | match ?o with Some _ => _ | None => _ end = _ => destruct o
  | bind ?x _ = _ => destruct x; cbn [bind] in H; try discriminate
  end.
Qed.

(** ** What is in the files *)
Definition inv (fs : files) (L : list call) : Prop := forall p f, fs p = Some f -> octet_file f /\ (p <> TIMESTAMPKEY -> f_reg f = true /\ exists c key n, In c L /\ get_timestamp_name (c_env c) = Ok (Some p) /\ time_t (c_time c) /\ f_mtime f = c_time c /\
  f_data f = firstn n (stamp key p (c_time c)) /\ ((length p + 29 <= n)%nat -> c_rc c = 0)).
Lemma inv_same : forall fs fs' L, inv fs L -> (forall q, q <> TIMESTAMPKEY -> fs' q = fs q) -> (forall f, fs' TIMESTAMPKEY = Some f -> octet_file f) -> inv fs' L.
Proof.
  intros fs fs' L I A C p f F. destruct (list_eq_dec ascii_dec p TIMESTAMPKEY) as [->|N]; [split; [apply C; exact F|intros X; destruct (X eq_refl)]|]. rewrite (A p N) in F. apply I. exact F.
Qed.
Lemma inv_more : forall fs L c, inv fs L -> inv fs (c :: L).
Proof.
  intros fs L c I p f F. destruct (I p f F) as [O R]. split; [exact O|]. intro N. destruct (R N) as (G & c' & key & n & J & K). split; [exact G|]. exists c', key, n. split; [right; exact J|exact K].
Qed.
Lemma inv_remove : forall fs L p, inv fs L -> inv (put_file fs p None) L.
Proof. intros fs L p I q f F. destruct (list_eq_dec ascii_dec q p) as [->|N]; [rewrite put_same in F; discriminate|]. rewrite put_other in F by exact N. apply I. exact F. Qed.
Lemma inv_key : forall fs L, inv fs L -> forall f, fs TIMESTAMPKEY = Some f -> octet_file f.
Proof. intros fs L I f F. apply (I _ _ F). Qed.
Lemma reach_inv : forall fs L, reach fs L -> inv fs L.
Proof.
  induction 1 as [fs A B|fs L e o rc fs' R IH RO T H|fs L e a rc fs' R IH RO H|fs L m n fs' R IH H|fs L p R IH].
  - intros p f F. destruct (list_eq_dec ascii_dec p TIMESTAMPKEY) as [->|N]; [split; [apply B; exact F|intros X; destruct (X eq_refl)]|]. rewrite (A p N) in F. discriminate.
  - destruct (open_effect _ _ _ _ _ H RO (inv_key _ _ IH)) as [(_ & A & _ & C)|(p & kf & fs1 & f & n & G & A & B & C & K & KL & -> & M & D & RG & Z)].
    + apply inv_more, inv_same with (fs := fs); assumption.
    + assert (I1 : inv fs1 L) by (apply inv_same with (fs := fs); assumption). intros q g F. destruct (list_eq_dec ascii_dec q p) as [->|N].
      * rewrite put_same in F. injection F as <-. destruct (stamp_octets (f_data kf) p (o_now o)) as [OS LS]. split.
        { split; [rewrite D; apply firstn_octets; exact OS|]. rewrite D, firstn_length, LS. pose proof (name_short e p G). lia. }
        intro NK. split.
        { rewrite RG. destruct (fs1 p) as [g|] eqn:P; [|reflexivity]. apply (I1 p g P). exact NK. }
        exists (mkCall e (o_now o) rc), (f_data kf), n. cbn [c_env c_time c_rc]. split; [left; reflexivity|]. repeat (split; [assumption|]). destruct Z as [[Z _]|[_ Z]]; [intros _; exact Z|lia].
      * rewrite put_other in F by exact N. apply (inv_more _ _ _ I1). exact F.
  - destruct (auth_effect _ _ _ _ _ H RO) as (A & B & C & _); [intros p f F; apply (IH p f F)|]. apply inv_same with (fs := fs); assumption.
  - destruct (check_effect _ _ _ _ H) as [->|[p ->]]; [exact IH|apply inv_remove; exact IH].
  - apply inv_remove. exact IH.
Qed.
Lemma good_window : forall t now i, timestamp_good t now i = Ok 0 -> in_window i t now.
Proof.
  intros t now i H. unfold timestamp_good, lng in H. unfold in_window. destruct (Z.leb_spec t now) as [A|A].
  - destruct (_ && _) in H; cbn [bind] in H; [|discriminate]. destruct (Z.ltb_spec (now - t) i) as [B|B]; cbn [bind] in H; [lia|]. destruct (Z.ltb_spec now t); [lia|]. discriminate.
  - cbn [bind] in H. destruct (Z.ltb_spec now t); [|lia]. destruct (_ && _) in H; cbn [bind] in H; [|discriminate]. destruct (_ && _) in H; cbn [bind] in H; [|discriminate]. destruct (Z.ltb_spec (t - now) (2 * i)) as [B|B]; cbn [bind] in H; [|discriminate]. lia.
Qed.
Lemma logged_in : forall utmp r t, (forall u, In u utmp -> login r u -> 0 < ut_sec u < 2 ^ 31) -> (check_login_time utmp r t = 0 <-> exists u, In u utmp /\ login r u /\ ut_sec u <= t).
Proof.
  intros utmp r t P. rewrite login_before_stamp by exact P. destruct (existsb _ utmp) eqn:E.
  - split; [|reflexivity]. intros _. apply existsb_exists in E. destruct E as (u & I & E). apply andb_true_iff in E. destruct E as [E1 E2]. apply andb_true_iff in E1. destruct E1 as [E0 E1]. apply Z.leb_le in E2. apply streq_eq in E1. exists u. split; [exact I|]. split; [split; [exact E0|first [exact E1|symmetry; exact E1]]|exact E2].
  - split; [discriminate|]. intros (u & I & [L1 L2] & T). assert (X : existsb (fun u => ut_proc u && streq (firstn 32 r) (firstn 32 (ut_user u)) && (ut_sec u <=? t)) utmp = true); [|congruence].
    apply existsb_exists. exists u. split; [exact I|]. rewrite L1, L2, streq_refl. apply Z.leb_le. exact T.
Qed.
Lemma skip_stamp : forall key p t, skipn (length p + 1) (stamp key p t) = (octets_le 8 t ++ HMAC_SHA1 key (stamped p t))%list.
Proof.
  intros key p t. unfold stamp. remember (HMAC_SHA1 key (stamped p t)) as h. clear Heqh. unfold stamped. rewrite <- app_assoc. cbn [app]. rewrite skipn_app, map_length. rewrite skipn_all2 by (rewrite map_length; lia).
  replace (length p + 1 - length p)%nat with 1%nat by lia. reflexivity.
Qed.
(** C59: an authentication that succeeds goes back to a session opened successfully under the same name, at a time that is
    within the window and not before the login. [p] is not the key file. *)
Theorem success_needs_session : forall fs L e a fs', reach fs L -> Forall octet (c_random (k_create (a_key a))) -> (forall r u, ~ named e r u TIMESTAMPKEY) -> pam_sm_authenticate e a fs = Ok (0, fs') ->
  exists r u p c r' u', named e r u p /\ In c L /\ c_rc c = 0 /\ named (c_env c) r' u' p /\ in_window (fold_left timeout_arg (e_args e) 300) (c_time c) (a_now a) /\
  ((forall x, In x (a_utmp a) -> login r x -> 0 < ut_sec x < 2 ^ 31) -> exists x, In x (a_utmp a) /\ login r x /\ ut_sec x <= c_time c).
Proof.
  intros fs L e a fs' R RO NK H. pose proof (reach_inv _ _ R) as I. destruct (auth_effect _ _ _ _ _ H RO) as (_ & _ & _ & S); [intros p f F; apply (I p f F)|].
  destruct (S eq_refl) as (p & f & r & G & F & U & GI & RG & L1 & _ & _ & GR & LT & TG). destruct (name_only e p G) as (r0 & u & N & GR0). assert (r0 = r) by congruence. subst r0. clear GR0.
  assert (PK : p <> TIMESTAMPKEY) by (intros ->; exact (NK _ _ N)). destruct (I p f F) as [_ [_ (c & key & n & J & GC & T & _ & D & RC)]]; [exact PK|].
  destruct (stamp_octets key p (c_time c)) as [_ LS]. assert (NL : (length p + 29 <= n)%nat) by (rewrite D, firstn_length, LS in L1; lia).
  assert (D' : f_data f = stamp key p (c_time c)) by (rewrite D; apply firstn_all2; lia). rewrite D', skip_stamp, (time_back _ _ T) in *.
  destruct (name_only _ p GC) as (r' & u' & N' & _). exists r, u, p, c, r', u'. split; [exact N|]. split; [exact J|]. split; [apply RC; exact NL|]. split; [exact N'|]. split; [apply good_window; exact TG|].
  intro P. apply logged_in; assumption.
Qed.
(** The hypothesis holds in the default directory. *)
Theorem default_not_key : forall e r u, (forall x, In x (e_args e) -> ~ exists d, x = (lit "timestampdir=" ++ d)%list) -> ~ named e r u TIMESTAMPKEY.
Proof.
  intros e r u A N. destruct N as [d t D _ _ _ _ _ P _]. apply dir_unique in D. rewrite (dir_unique _ _ (DirDefault _ A)) in D. subst d.
  assert (C : forall x y, TIMESTAMPKEY <> (lit "/var/run/pam_timestamp" ++ lit "/" ++ x ++ lit "/" ++ y)%list).
  { intros x y E. change TIMESTAMPKEY with (lit "/var/run/pam_timestamp" ++ lit "/" ++ lit "_pam_timestamp_key")%list in E. apply app_inv_head in E. apply app_inv_head in E.
    assert (I : In "/"%char (lit "_pam_timestamp_key")) by (rewrite E; apply in_or_app; right; left; reflexivity). cbv in I. intuition discriminate. }
  remember TIMESTAMPKEY as k eqn:EK in P. destruct P; symmetry in EK; exact (C _ _ EK).
Qed.

Lemma skip_more : forall n m (l : list Z), skipn (n + m) l = skipn m (skipn n l).
Proof. induction n as [|n IH]; intros m l; [reflexivity|]. destruct l as [|x l]; [cbn; rewrite skipn_nil; reflexivity|]. cbn. apply IH. Qed.
(** C59: whatever the files, one that is accepted is root's, is regular and consists of its own name, an octet, the time and the
    code of these under the key. *)
Theorem accepted_file : forall fs e a fs', (forall p f, fs p = Some f -> octet_file f) -> Forall octet (c_random (k_create (a_key a))) -> pam_sm_authenticate e a fs = Ok (0, fs') ->
  exists r u p f kf x t, named e r u p /\ fs p = Some f /\ f_uid f = 0 /\ f_gid f = 0 /\ f_reg f = true /\ fs' TIMESTAMPKEY = Some kf /\ (20 <= length (f_data kf))%nat /\ time_t t /\
    (let text := (map (fun c => Z.of_N (N_of_ascii c)) p ++ x :: octets_le 8 t)%list in f_data f = (text ++ HMAC_SHA1 (f_data kf) text)%list) /\
    in_window (fold_left timeout_arg (e_args e) 300) t (a_now a) /\ ((forall x, In x (a_utmp a) -> login r x -> 0 < ut_sec x < 2 ^ 31) -> exists x, In x (a_utmp a) /\ login r x /\ ut_sec x <= t).
Proof.
  intros fs e a fs' OF RO H. destruct (auth_effect _ _ _ _ _ H RO OF) as (_ & _ & _ & S). destruct (S eq_refl) as (p & f & r & G & F & U & GI & RG & L1 & (kf & K & KL & D) & NM & GR & LT & TG).
  destruct (name_only e p G) as (r0 & u & N & GR0). assert (r0 = r) by congruence. subst r0. clear GR0. destruct (OF p f F) as [OD _]. cbv zeta.
  assert (EX : exists x o, skipn (length p) (f_data f) = x :: o /\ (28 <= length o)%nat).
  { destruct (skipn (length p) (f_data f)) as [|x o] eqn:E; [apply (f_equal (@length Z)) in E; rewrite skipn_length in E; cbn in E; lia|]. exists x, o. split; [reflexivity|]. apply (f_equal (@length Z)) in E. rewrite skipn_length in E. cbn [length] in E. lia. }
  destruct EX as (x & o & E & LO). assert (EO : skipn (length p + 1) (f_data f) = o) by (rewrite skip_more, E; reflexivity). rewrite EO in *.
  assert (OO : Forall octet o) by (rewrite <- (firstn_skipn (length p + 1) (f_data f)), EO in OD; apply Forall_app in OD; tauto).
  assert (TT : exists t, time_t t /\ firstn 8 o = octets_le 8 t /\ time_of o = t).
  { unfold time_of. assert (O8 : Forall octet (firstn 8 o)) by (apply firstn_octets; exact OO). assert (L8 : length (firstn 8 o) = 8%nat) by (rewrite firstn_length; lia). remember (firstn 8 o) as w eqn:EW. clear EW.
    assert (V : forall l, Forall octet l -> 0 <= fold_right (fun x v => x + 256 * v) 0 l < 256 ^ Z.of_nat (length l) /\ l = octets_le (length l) (fold_right (fun x v => x + 256 * v) 0 l)).
    { induction l as [|y l IH]; intro O; [split; [cbn; lia|reflexivity]|]. apply Forall_cons_iff in O. destruct O as [O1 O2]. destruct (IH O2) as [I1 I2]. cbn [fold_right length octets_le]. rewrite Nat2Z.inj_succ, Z.pow_succ_r by lia. unfold octet in O1.
      set (v := fold_right _ 0 l) in *. split; [lia|]. f_equal; [apply Z.mod_unique with (q := v); lia|]. replace ((y + 256 * v) / 256) with v by (apply Z.div_unique with (r := y); lia). exact I2. }
    destruct (V w O8) as [V1 V2]. rewrite L8 in V1, V2. change (256 ^ Z.of_nat 8) with 18446744073709551616 in V1. set (v := fold_right _ 0 w) in *. clearbody v. change (2 ^ 63) with 9223372036854775808. change (2 ^ 64) with 18446744073709551616.
    destruct (Z.ltb_spec v 9223372036854775808) as [B|B]; [exists v; unfold time_t, LONG_MIN, LONG_MAX; split; [lia|auto]|]. exists (v - 18446744073709551616). unfold time_t, LONG_MIN, LONG_MAX. split; [lia|]. split; [|reflexivity].
    rewrite V2. clear V2. replace v with (v - 18446744073709551616 + 1 * 256 ^ Z.of_nat 8) at 1 by (change (256 ^ Z.of_nat 8) with 18446744073709551616; lia). clear. generalize (v - 18446744073709551616) 1. generalize 8%nat. clear.
    induction n as [|n IH]; intros z k; [reflexivity|]. cbn [octets_le]. rewrite Nat2Z.inj_succ, Z.pow_succ_r by lia. replace (k * (256 * 256 ^ Z.of_nat n)) with (k * 256 ^ Z.of_nat n * 256) by ring. rewrite Z.mod_add, Z.div_add by lia. f_equal. apply IH. }
  destruct TT as (t & T1 & T2 & T3). rewrite T3 in *. exists r, u, p, f, kf, x, t. repeat (split; [assumption|]). split; [|split; [apply good_window; exact TG|intro P; apply logged_in; assumption]].
  replace (map (fun c => Z.of_N (N_of_ascii c)) p ++ x :: octets_le 8 t)%list with (firstn (length p + 9) (f_data f)); [exact D|].
  rewrite <- (firstn_skipn (length p) (f_data f)) at 1. rewrite NM, E. rewrite firstn_app. unfold octets_of at 2. rewrite map_length. replace (length p + 9 - length p)%nat with 9%nat by lia. rewrite firstn_all2 by (unfold octets_of; rewrite map_length; lia).
  cbn [firstn]. unfold octets_of. rewrite <- T2. reflexivity.
Qed.

(** ** When nothing fails *)
Definition lucky_key (k : keyluck) : Prop := k_open k = true /\ k_stat k = true /\ k_mem k = true /\ Forall (fun n => n <> 0%nat) (k_cuts k).
Definition lucky_session (o : sess) (p : cstr) : Prop := (forall d, o_mkdir o d = true) /\ o_mem o = true /\ lucky_key (o_key o) /\ o_macmem o = true /\ o_open o = true /\ o_chown o = true /\ (length p + 29 <= o_written o)%nat.
Definition lucky_auth (a : auth) : Prop := a_open a = true /\ a_stat a = true /\ a_mem a = true /\ Forall (fun n => n <> 0%nat) (a_cuts a) /\ lucky_key (a_key a) /\ a_macmem a = true.
Lemma lucky_generate : forall k fs kf text, lucky_key k -> fs TIMESTAMPKEY = Some kf -> octet_file kf -> (20 <= length (f_data kf))%nat -> Forall octet text -> Z.of_nat (length text) < 2 ^ 32 ->
  hmac_sha1_generate_file k true fs text = Ok (fs, Some (HMAC_SHA1 (f_data kf) text)).
Proof.
  intros k fs kf text (A & B & C & D) K [O1 O2] KL OT LT. unfold hmac_sha1_generate_file, hmac_key_read. rewrite K, K, A, B, C. cbn [andb]. rewrite read_loop_all by (auto; lia). rewrite firstn_all, mac_result by assumption.
  rewrite (proj2 (Nat.leb_le _ _) KL). reflexivity.
Qed.
Lemma mkdirs_all : forall mk rest d, (forall d, mk d = true) -> mkdirs mk d rest = true.
Proof. intros mk. induction rest as [|c rest IH]; intros d M; [reflexivity|]. cbn [mkdirs]. rewrite IH by exact M. rewrite M. destruct (Ascii.eqb c "/"%char && match d with [] => false | _ => true end); reflexivity. Qed.
Definition lucky_start (o : sess) : Prop := (forall d, o_mkdir o d = true) /\ o_mem o = true /\ lucky_key (o_key o) /\ o_macmem o = true /\ o_open o = true /\ o_chown o = true.
Lemma session_writes : forall e o fs r u p kf, named e r u p -> ~ directory (e_args e) [] -> lucky_start o -> fs TIMESTAMPKEY = Some kf -> octet_file kf -> (20 <= length (f_data kf))%nat ->
  pam_sm_open_session e o fs = Ok (if (o_written o <? length p + 29)%nat then 14 else 0,
    put_file fs p (Some (mkFile 0 0 (match fs p with Some f0 => f_reg f0 | None => true end) (firstn (o_written o) (stamp (f_data kf) p (o_now o))) (o_now o)))).
Proof.
  intros e o fs r u p kf N ND (L1 & L2 & L3 & L4 & L5 & L6) K OK KL. destruct (name_meaning _ _ _ _ N ND) as (G & _ & _). unfold pam_sm_open_session. rewrite G. cbn [bind]. rewrite (mkdirs_all _ _ _ L1), L2. cbn [negb]. cbv zeta. rewrite stamped_model, L4.
  destruct (stamped_octets p (o_now o)) as [OT LT]. pose proof (name_short _ _ G) as LP. rewrite (lucky_generate _ _ _ _ L3 K OK KL OT) by lia. cbn [bind]. rewrite L5, L6. cbn [negb].
  change (stamped p (o_now o) ++ HMAC_SHA1 (f_data kf) (stamped p (o_now o)))%list with (stamp (f_data kf) p (o_now o)). destruct (stamp_octets (f_data kf) p (o_now o)) as [_ LS]. rewrite LS. destruct (fs p); reflexivity.
Qed.
(** C59: a session that meets no failure writes the stamp. *)
Theorem session_stamps : forall e o fs r u p kf, named e r u p -> ~ directory (e_args e) [] -> lucky_session o p -> fs TIMESTAMPKEY = Some kf -> octet_file kf -> (20 <= length (f_data kf))%nat ->
  exists f, pam_sm_open_session e o fs = Ok (0, put_file fs p (Some f)) /\ f_uid f = 0 /\ f_gid f = 0 /\ f_data f = stamp (f_data kf) p (o_now o) /\ f_mtime f = o_now o /\ f_reg f = match fs p with Some f0 => f_reg f0 | None => true end.
Proof.
  intros e o fs r u p kf N ND (L1 & L2 & L3 & L4 & L5 & L6 & L7) K OK KL. rewrite (session_writes e o fs r u p kf) by (try assumption; repeat (split; [assumption|]); assumption). rewrite (proj2 (Nat.ltb_ge _ _) L7).
  destruct (stamp_octets (f_data kf) p (o_now o)) as [_ LS]. rewrite firstn_all2 by lia. eexists. split; [reflexivity|]. repeat (split; [reflexivity|]). reflexivity.
Qed.
Lemma accept_stamp : forall e a fs r u p f kf t, named e r u p -> ~ directory (e_args e) [] -> lucky_auth a -> fs TIMESTAMPKEY = Some kf -> octet_file kf -> (20 <= length (f_data kf))%nat ->
  fs p = Some f -> f_uid f = 0 -> f_gid f = 0 -> f_reg f = true -> f_data f = stamp (f_data kf) p t -> time_t t ->
  pam_sm_authenticate e a fs = bind (if check_login_time (a_utmp a) r t =? 0 then timestamp_good t (a_now a) (fold_left timeout_arg (e_args e) 300) else Ok 7) (fun g => Ok (if g =? 0 then 0 else 7, fs)).
Proof.
  intros e a fs r u p f kf t N ND (L1 & L2 & L3 & L4 & L5 & L6) K OK KL F FU FG FR D T. destruct (name_meaning _ _ _ _ N ND) as (G & GR & _). unfold pam_sm_authenticate. cbv zeta. rewrite G. cbn [bind]. rewrite F, L1, L2, FU, FG, FR, L3. cbn [negb orb Z.eqb].
  destruct (stamp_octets (f_data kf) p t) as [OS LS]. assert (LD : length (f_data f) = (length p + 29)%nat) by (rewrite D; exact LS). rewrite LD. destruct (Nat.eqb_spec (length p + 29) 0) as [X|_]; [lia|]. replace (length p + 1 + 8 + 20)%nat with (length p + 29)%nat by lia. rewrite Nat.eqb_refl. cbn [negb].
  rewrite read_loop_all by (auto; lia). rewrite (@firstn_all2 _ (length p + 29) (f_data f)) by lia. replace (length p + 1 + 8)%nat with (length p + 9)%nat by lia. rewrite D.
  destruct (stamped_octets p t) as [OT LT]. pose proof (name_short _ _ G) as LP.
  assert (F1 : firstn (length p + 9) (stamp (f_data kf) p t) = stamped p t) by (unfold stamp; rewrite firstn_app, LT, Nat.sub_diag, firstn_O, app_nil_r; apply firstn_all2; lia).
  assert (F2 : skipn (length p + 9) (stamp (f_data kf) p t) = HMAC_SHA1 (f_data kf) (stamped p t)) by (unfold stamp; rewrite skipn_app, LT, Nat.sub_diag, skipn_all2 by lia; reflexivity).
  assert (F3 : firstn (length p) (stamp (f_data kf) p t) = octets_of p).
  { unfold stamp. remember (HMAC_SHA1 (f_data kf) (stamped p t)) as h eqn:EH. clear EH. unfold stamped. rewrite <- app_assoc. rewrite firstn_app, map_length, Nat.sub_diag, firstn_O, app_nil_r. unfold octets_of. rewrite <- (map_length (fun c => Z.of_N (N_of_ascii c)) p) at 1. apply firstn_all. }
  rewrite F1, F2, F3, L6. rewrite (lucky_generate _ _ _ _ L5 K OK KL OT) by lia. cbn [bind]. destruct (list_eq_dec Z.eq_dec (octets_of p) (octets_of p)) as [_|X]; [|destruct (X eq_refl)].
  destruct (list_eq_dec Z.eq_dec (HMAC_SHA1 (f_data kf) (stamped p t)) (HMAC_SHA1 (f_data kf) (stamped p t))) as [_|X]; [|destruct (X eq_refl)]. cbn [negb orb]. rewrite skip_stamp, (time_back _ _ T), GR.
  change PAM_SUCCESS with 0. change PAM_AUTH_ERR with 7. destruct (check_login_time (a_utmp a) r t =? 0); cbn [negb]; reflexivity.
Qed.

(** Other calls in between: none opens a session under this name or under that of the key, none removes either file. *)
Inductive later (p : cstr) : files -> files -> Prop :=
| LaterNow : forall fs, later p fs fs
| LaterOpen : forall fs fs1 e o rc fs2, later p fs fs1 -> Forall octet (c_random (k_create (o_key o))) -> (forall r u, ~ named e r u p) -> (forall r u, ~ named e r u TIMESTAMPKEY) -> pam_sm_open_session e o fs1 = Ok (rc, fs2) -> later p fs fs2
| LaterAuth : forall fs fs1 e a rc fs2, later p fs fs1 -> Forall octet (c_random (k_create (a_key a))) -> (forall q f, fs1 q = Some f -> octet_file f) -> pam_sm_authenticate e a fs1 = Ok (rc, fs2) -> later p fs fs2
| LaterCheck : forall fs fs1 m n fs2, later p fs fs1 -> m_k m = 0%nat -> check_main m fs1 = Ok (n, fs2) -> later p fs fs2
| LaterRemove : forall fs fs1 q, later p fs fs1 -> q <> p -> q <> TIMESTAMPKEY -> later p fs (put_file fs1 q None).
Lemma check_only_looks : forall m fs n fs', check_main m fs = Ok (n, fs') -> m_k m = 0%nat -> fs' = fs.
Proof.
  intros m fs n fs' H K. unfold check_main in H. rewrite K in H. change (0 <? 0)%nat with false in H.
  repeat match type of H with
  | Ok (_, _) = Ok (_, _) => apply ok_pair in H; destruct H as [_ H]; symmetry; exact H
  | (if ?b then _ else _) = _ => destruct b
  | (let x := _ in _) = _ => cbv zeta in H
  | match ?o with Some _ => _ | None => _ end = _ => destruct o
  | bind ?x _ = _ => destruct x; cbn [bind] in H; try discriminate
  end.
Qed.
Lemma undisturbed : forall p fs fs', later p fs fs' -> p <> TIMESTAMPKEY -> forall kf, fs TIMESTAMPKEY = Some kf -> octet_file kf -> fs' p = fs p /\ fs' TIMESTAMPKEY = Some kf.
Proof.
  induction 1 as [fs|fs fs1 e o rc fs2 L IH RO N1 N2 H|fs fs1 e a rc fs2 L IH RO OF H|fs fs1 m n fs2 L IH MK H|fs fs1 q L IH N1 N2]; intros PK kf K OK; [auto| | | |]; destruct (IH PK kf K OK) as [A B].
  - destruct (open_effect _ _ _ _ _ H RO) as [(_ & C & D & _)|(q & kf' & fs3 & f & n & G & C & D & _ & _ & _ & -> & _)]; [intros f F; rewrite B in F; injection F as <-; exact OK| |].
    + rewrite C by exact PK. auto.
    + destruct (name_only _ _ G) as (r & u & N & _). rewrite !put_other by (intros <-; first [exact (N1 _ _ N)|exact (N2 _ _ N)]). rewrite C by exact PK. auto.
  - destruct (auth_effect _ _ _ _ _ H RO OF) as (C & D & _). rewrite C by exact PK. auto.
  - apply check_only_looks in H; [subst fs2; auto|exact MK].
  - rewrite !put_other by congruence. auto.
Qed.
(** C59: after a session has been opened successfully, an authentication under the same name succeeds if nothing fails, the time
    is right and the user was logged in before the session. *)
Theorem session_then_accepted : forall L fs e o fs1 r u p fs2 e' r' u' a, reach fs L -> Forall octet (c_random (k_create (o_key o))) -> time_t (o_now o) -> named e r u p -> ~ directory (e_args e) [] -> p <> TIMESTAMPKEY ->
  pam_sm_open_session e o fs = Ok (0, fs1) -> later p fs1 fs2 -> named e' r' u' p -> ~ directory (e_args e') [] -> lucky_auth a ->
  time_value (o_now o) -> time_value (a_now a) -> time_value (fold_left timeout_arg (e_args e') 300) -> in_window (fold_left timeout_arg (e_args e') 300) (o_now o) (a_now a) ->
  (forall x, In x (a_utmp a) -> login r' x -> 0 < ut_sec x < 2 ^ 31) -> (exists x, In x (a_utmp a) /\ login r' x /\ ut_sec x <= o_now o) ->
  pam_sm_authenticate e' a fs2 = Ok (0, fs2).
Proof.
  intros L fs e o fs1 r u p fs2 e' r' u' a R RO T N ND PK H LA N' ND' LK V1 V2 V3 W P LG. pose proof (reach_inv _ _ R) as I.
  destruct (open_effect _ _ _ _ _ H RO (inv_key _ _ I)) as [(X & _)|(q & kf & fs3 & f & n & G & C & D & OK & K & KL & -> & M & FD & RG & Z)]; [destruct (X eq_refl)|].
  destruct (name_meaning _ _ _ _ N ND) as (G' & _ & _). assert (q = p) by congruence. subst q. destruct Z as [(_ & FU & FG & NL)|[X _]]; [|discriminate].
  destruct (stamp_octets (f_data kf) p (o_now o)) as [OS LS]. rewrite firstn_all2 in FD by lia.
  assert (RG' : f_reg f = true).
  { rewrite RG, C by exact PK. destruct (fs p) as [g|] eqn:F; [|reflexivity]. apply (I p g F). exact PK. }
  destruct (undisturbed _ _ _ LA PK kf) as [E1 E2]; [rewrite put_other by congruence; exact K|apply OK; exact K|]. rewrite put_same in E1.
  rewrite (accept_stamp e' a fs2 r' u' p f kf (o_now o)) by (first [assumption|apply OK; exact K]).
  rewrite (proj2 (logged_in _ _ _ P) LG). change (0 =? 0) with true. cbv iota. rewrite age_window by assumption. unfold in_window in W. destruct W as [W1 W2]. rewrite (proj2 (Z.ltb_lt _ _) W1), (proj2 (Z.ltb_lt _ _) W2). reflexivity.
Qed.

(** ** pam_timestamp_check *)
(** It uses the file the module uses when the invoking user asks, on the terminal of the standard descriptors. *)
Definition check_env (m : check) : env := mkEnv [] (match m_target m with Some t => Some t | None => m_own m end) None None (m_own m) (m_tty0 m) (m_tty1 m) (m_tty2 m) (m_lstat m).
Lemma check_path : forall m fs fs' n, check_main m fs = Ok (n, fs') -> n = 0 \/ n = 255 -> m_own m <> Some [] -> m_target m <> Some [] -> exists r p, m_own m = Some r /\ get_timestamp_name (check_env m) = Ok (Some p) /\
  if (0 <? m_k m)%nat then (n = 0 -> fs' p = None) /\ (forall q, q <> p -> fs' q = fs q) else fs' = fs /\ exists f, fs p = Some f /\ check_login_time (m_utmp m) r (f_mtime f) = 0 /\ timestamp_good (f_mtime f) (m_now m) 300 = Ok 0.
Proof.
  intros m fs fs' n H Hn OW TG. unfold check_main in H.
  repeat match type of H with (if ?b then Ok (?x, fs) else _) = _ => destruct b; [apply ok_pair in H; destruct H as [H _]; subst n; destruct Hn; discriminate|] end.
  assert (TT : (if negb (blank (m_tty0 m)) then m_tty0 m else if negb (blank (m_tty1 m)) then m_tty1 m else if negb (blank (m_tty2 m)) then m_tty2 m else Some (lit "unknown")) = tty_of (check_env m)) by reflexivity. cbv zeta in H. rewrite TT in H.
  destruct (m_own m) as [r|] eqn:MO; [|apply ok_pair in H; destruct H as [H _]; subst n; destruct Hn; discriminate]. destruct (negb (m_mem m)); [apply ok_pair in H; destruct H as [H _]; subst n; destruct Hn; discriminate|].
  set (target := match m_target m with Some t => t | None => r end) in *. destruct (existsb _ target); [apply ok_pair in H; destruct H as [H _]; subst n; destruct Hn; discriminate|].
  destruct (check_tty (tty_of (check_env m))) as [t|] eqn:CT; [|apply ok_pair in H; destruct H as [H _]; subst n; destruct Hn; discriminate].
  destruct (format_timestamp_name BUFLEN TIMESTAMPDIR t r target) as [p|] eqn:FN; [|apply ok_pair in H; destruct H as [H _]; subst n; destruct Hn; discriminate].
  destruct (check_dir_perms (m_lstat m) TIMESTAMPDIR) as [i| |] eqn:CD; cbn [bind] in H; try discriminate. destruct (Z.eqb_spec i PAM_SUCCESS) as [->|X]; cbn [negb] in H; [|apply ok_pair in H; destruct H as [H _]; subst n; destruct Hn; discriminate].
  exists r, p. split; [reflexivity|].
  assert (RE : get_ruser (check_env m) = Some r).
  { unfold get_ruser. cbn [e_ruser e_own check_env]. rewrite MO. pose proof (proj1 (path_model _ _ _ _ _) FN) as [PF PL]. pose proof (path_longer _ _ _ _ _ PF) as [_ LR]. unfold BUFLEN. destruct (Z.leb_spec 4096 (Z.of_nat (length r))); [lia|reflexivity]. }
  assert (RN : r <> []) by (intros ->; apply OW; reflexivity). assert (TN : target <> []) by (unfold target; destruct (m_target m) as [[|x tg]|] eqn:ET; [destruct TG; first [reflexivity|exact ET]|discriminate|exact RN]).
  assert (EU : e_user (check_env m) = Some target) by (unfold check_env; cbn [e_user]; unfold target; destruct (m_target m); [reflexivity|exact MO]).
  split.
  { unfold get_timestamp_name. change (fold_left tdir_arg (e_args (check_env m)) TIMESTAMPDIR) with TIMESTAMPDIR. change (e_lstat (check_env m)) with (m_lstat m). rewrite CD. cbn [bind]. change (PAM_SUCCESS =? PAM_SUCCESS) with true. cbn [negb]. rewrite EU, RE, CT.
    destruct target as [|x tg]; [destruct (TN eq_refl)|]. destruct r as [|y r]; [destruct (RN eq_refl)|]. rewrite FN. reflexivity. }
  destruct (0 <? m_k m)%nat.
  - destruct (fs p) as [f|] eqn:F; [|apply ok_pair in H; destruct H as [_ <-]; split; [intros _; exact F|reflexivity]]. destruct (m_unlink m); apply ok_pair in H; destruct H as [H <-]; [|split; [intros ->; discriminate|reflexivity]].
    split; [intros _; apply put_same|]. intros q Nq. apply put_other. exact Nq.
  - destruct (fs p) as [f|] eqn:F; [|apply ok_pair in H; destruct H as [H _]; subst n; destruct Hn; discriminate]. destruct (Z.eqb_spec (check_login_time (m_utmp m) r (f_mtime f)) PAM_SUCCESS) as [LG|X]; cbn [negb] in H; [|apply ok_pair in H; destruct H as [H _]; subst n; destruct Hn; discriminate].
    destruct (timestamp_good (f_mtime f) (m_now m) 300) as [g| |] eqn:G; cbn [bind] in H; try discriminate. destruct (Z.eqb_spec g PAM_SUCCESS) as [->|X]; [|apply ok_pair in H; destruct H as [H _]; subst n; destruct Hn; discriminate].
    apply ok_pair in H. destruct H as [_ <-]. split; [reflexivity|]. exists f. auto.
Qed.
(** C60: pam_timestamp_check exits with 0 only if a session was opened, or tried, under the name at a time within the window of
    300 seconds and not before the login. *)
Theorem check_needs_session : forall fs L m fs', reach fs L -> m_k m = 0%nat -> m_own m <> Some [] -> m_target m <> Some [] -> check_main m fs = Ok (0, fs') ->
  fs' = fs /\ exists r u p c r' u', named (check_env m) r u p /\ m_own m = Some r /\ In c L /\ named (c_env c) r' u' p /\ in_window 300 (c_time c) (m_now m) /\
  ((forall x, In x (m_utmp m) -> login r x -> 0 < ut_sec x < 2 ^ 31) -> exists x, In x (m_utmp m) /\ login r x /\ ut_sec x <= c_time c).
Proof.
  intros fs L m fs' R K OW TG H. pose proof (reach_inv _ _ R) as I. destruct (check_path _ _ _ _ H (or_introl eq_refl) OW TG) as (r & p & MO & G & X). rewrite K in X. change (0 <? 0)%nat with false in X. cbv iota in X. destruct X as [-> (f & F & LG & TS)]. split; [reflexivity|].
  destruct (name_only _ _ G) as (r0 & u & N & GR). assert (r0 = r).
  { unfold get_ruser in GR. cbn [e_ruser e_own check_env] in GR. rewrite MO in GR. destruct (_ <=? _) in GR; congruence. }
  subst r0. assert (PK : p <> TIMESTAMPKEY) by (intros ->; apply (default_not_key (check_env m) r u); [intros x []|exact N]). destruct (I p f F) as [_ [_ (c & key & n & J & GC & T & MT & _)]]; [exact PK|].
  destruct (name_only _ _ GC) as (r' & u' & N' & _). exists r, u, p, c, r', u'. rewrite MT in *. repeat (split; [assumption|]). split; [apply good_window; exact TS|]. intro P. apply logged_in; assumption.
Qed.
(** C60: after pam_timestamp_check -k has exited with 0 the module refuses; no other file is touched. *)
Theorem removed_refused : forall fs m fs', (0 < m_k m)%nat -> m_own m <> Some [] -> m_target m <> Some [] -> check_main m fs = Ok (0, fs') ->
  exists r u p, named (check_env m) r u p /\ m_own m = Some r /\ (forall q, q <> p -> fs' q = fs q) /\
  (forall e r' u' a, named e r' u' p -> ~ directory (e_args e) [] -> pam_sm_authenticate e a fs' = Ok (7, fs')).
Proof.
  intros fs m fs' K OW TG H. destruct (check_path _ _ _ _ H (or_introl eq_refl) OW TG) as (r & p & MO & G & X). rewrite (proj2 (Nat.ltb_lt _ _) K) in X. destruct X as [X1 X2]. specialize (X1 eq_refl).
  destruct (name_only _ _ G) as (r0 & u & N & GR). assert (r0 = r).
  { unfold get_ruser in GR. cbn [e_ruser e_own check_env] in GR. rewrite MO in GR. destruct (_ <=? _) in GR; congruence. }
  subst r0. exists r, u, p. split; [exact N|]. split; [exact MO|]. split; [exact X2|]. intros e r' u' a N' ND. destruct (name_meaning _ _ _ _ N' ND) as (G' & _ & _). unfold pam_sm_authenticate. cbv zeta. rewrite G'. cbn [bind]. rewrite X1. reflexivity.
Qed.

(** The program works only on targets without dots, slashes and percent signs; for others it changes nothing and fails. *)
Theorem target_plain : forall m fs r fs' t c, check_main m fs = Ok (r, fs') -> m_target m = Some t \/ (m_target m = None /\ m_own m = Some t) -> In c t -> In c (lit "./%") -> fs' = fs /\ In r [1; 2; 3; 4].
Proof.
  intros m fs r fs' t c H T I C. unfold check_main in H. destruct (m_stdio m); cbn [negb] in H; [|injection H as <- <-; cbn; auto]. destruct (m_bad m); [injection H as <- <-; cbn; auto|].
  destruct (1 <? m_k m + m_d m)%nat; [injection H as <- <-; cbn; auto|]. destruct (m_root m); cbn [negb] in H; [|injection H as <- <-; cbn; auto]. cbv zeta in H.
  destruct (m_own m) as [user|] eqn:O; [|injection H as <- <-; cbn; auto 6]. destruct (m_mem m); cbn [negb] in H; [|injection H as <- <-; cbn; auto 6].
  assert (E : match m_target m with Some t => t | None => user end = t) by (destruct T as [-> |(-> & T)]; [reflexivity|congruence]). rewrite E in H.
  assert (X : existsb (fun c => Ascii.eqb c "."%char || Ascii.eqb c "/"%char || Ascii.eqb c "%"%char) t = true).
  { apply existsb_exists. exists c. split; [exact I|]. cbn in C. destruct C as [<-|[<-|[<-|[]]]]; reflexivity. }
  rewrite X in H. injection H as <- <-. cbn. auto 6.
Qed.

(** ** What does not hold *)
Lemma short_key_refuses : forall fs kf, (forall p f, fs p = Some f -> octet_file f) -> fs TIMESTAMPKEY = Some kf -> (length (f_data kf) < 20)%nat ->
  (forall e o rc fs', Forall octet (c_random (k_create (o_key o))) -> pam_sm_open_session e o fs = Ok (rc, fs') -> rc <> 0 /\ fs' TIMESTAMPKEY = Some kf) /\
  (forall e a rc fs', Forall octet (c_random (k_create (a_key a))) -> pam_sm_authenticate e a fs = Ok (rc, fs') -> rc <> 0 /\ fs' TIMESTAMPKEY = Some kf).
Proof.
  intros fs kf OF K L. split.
  - intros e o rc fs' RO H. destruct (open_effect _ _ _ _ _ H RO) as [(A & _ & B & _)|(p & kf' & fs1 & f & n & _ & _ & B & _ & K' & L' & _)]; [intros f F; apply (OF _ _ F)|split; [exact A|apply B; exact K]|]. rewrite (B _ K) in K'. injection K' as <-. lia.
  - intros e a rc fs' RO H. destruct (auth_effect _ _ _ _ _ H RO OF) as (_ & B & _ & S). split; [|apply B; exact K]. intros E. destruct (S E) as (p & f & r & _ & _ & _ & _ & _ & _ & (kf' & K' & L' & _) & _). rewrite (B _ K) in K'. injection K' as <-. lia.
Qed.
Definition root_dirs : cstr -> lres := fun _ => LStat (mkStat KDir 0 0 493).
Definition ex_check (k : nat) (now : Z) : check := mkCheck k 0 false (Some (lit "root")) true true (Some (lit "/dev/pts/3")) None None (Some (lit "joe")) true root_dirs [mkUt true (lit "joe") 1699990000] now true.
Definition ex_key : file := mkFile 0 0 true (repeat 7 64) 0.
Definition ex_start : files := put_file (fun _ => None) TIMESTAMPKEY (Some ex_key).
Definition ex_create (rand : bool) : creation := mkCreation true true rand true (repeat 9 64) 64 0 0 0.
Definition ex_luck (rand : bool) : keyluck := mkKey true (ex_create rand) true true true [5%nat].
Definition ex_sess (rand : bool) (n : nat) : sess := mkSess (fun _ => true) true (ex_luck rand) true true 0 0 true n 1700000000.
Definition ex_auth (now : Z) : auth := mkAuth true true true [10%nat; 1%nat] (ex_luck true) true [mkUt true (lit "joe") 1699990000] now.
Definition ex_path : cstr := lit "/var/run/pam_timestamp/joe/3:root".
Lemma ex_random : forall b, Forall octet (c_random (k_create (ex_luck b))).
Proof. intro b. cbn. repeat apply Forall_cons; try apply Forall_nil; unfold octet; lia. Qed.
Lemma ex_named : forall k now, named (check_env (ex_check k now)) (lit "joe") (lit "root") ex_path /\ ~ directory (e_args (check_env (ex_check k now))) [].
Proof.
  intros k now. split; [|intros X; apply dir_unique in X; discriminate]. apply Named with (d := lit "/var/run/pam_timestamp") (t := lit "3"); try reflexivity; try discriminate.
  - apply DirDefault. intros a [].
  - split; [intros p _; right; eexists; split; [reflexivity|]; repeat split; reflexivity|intros; discriminate].
  - apply ReqOwn; [left; reflexivity|reflexivity|discriminate].
  - exists (lit "/dev/pts/3"). split; [apply FirstLater; [left; reflexivity|]; apply FirstHere; discriminate|].
    split; [apply (BaseDev (lit "/dev/pts") (lit "3")); [cbv; intuition discriminate|exists (lit "pts/3"); reflexivity]|]. split; [discriminate|]. split; discriminate.
  - apply (PathOther (lit "/var/run/pam_timestamp") (lit "joe") (lit "3") (lit "root")). discriminate.
Qed.
Lemma ex_key_octets : octet_file ex_key.
Proof. split; [cbn; repeat apply Forall_cons; try apply Forall_nil; unfold octet; lia|reflexivity]. Qed.
Lemma ex_reach : reach ex_start [].
Proof.
  apply ReachStart; [intros p N; unfold ex_start; rewrite put_other by exact N; reflexivity|]. intros f F. unfold ex_start in F. rewrite put_same in F. injection F as <-. apply ex_key_octets.
Qed.
Lemma ex_reach_key : forall rest, reach ex_start rest -> ex_start TIMESTAMPKEY = Some ex_key.
Proof. intros rest _. apply put_same. Qed.
Lemma ex_short : lucky_start (ex_sess true 0) /\ lucky_session (ex_sess true 100) ex_path /\ lucky_auth (ex_auth 1700000200).
Proof. unfold lucky_start, lucky_session, lucky_auth, lucky_key. cbn. repeat split; auto; try lia; repeat apply Forall_cons; try apply Forall_nil; discriminate. Qed.
(** A failed attempt to open a session, whose file is left behind, satisfies pam_timestamp_check, which looks only at the time of
    the file; the module does not accept it. *)
Theorem check_agrees_refuted : exists fs L m a, reach fs L /\ (forall c, In c L -> c_rc c <> 0) /\ m_k m = 0%nat /\ a_now a = m_now m /\ a_utmp a = m_utmp m /\ lucky_auth a /\
  check_main m fs = Ok (0, fs) /\ pam_sm_authenticate (check_env m) a fs = Ok (7, fs).
Proof.
  destruct (ex_named 0 0) as [N ND]. destruct ex_short as (S1 & S2 & S3).
  pose proof (session_writes (check_env (ex_check 0 0)) (ex_sess true 0) ex_start _ _ _ ex_key N ND S1 (ex_reach_key _ ex_reach) ex_key_octets ltac:(vm_compute; lia)) as W.
  change (o_written (ex_sess true 0)) with 0%nat in W. rewrite firstn_O in W. assert (T : time_t (o_now (ex_sess true 0))) by (split; vm_compute; congruence). pose proof (ReachOpen _ _ _ (ex_sess true 0) _ _ ex_reach (ex_random true) T W) as R.
  eexists. eexists. exists (ex_check 0 1700000200), (ex_auth 1700000200). split; [exact R|]. split; [intros c [<-|[]]; discriminate|]. repeat (split; [reflexivity|]). split; [exact S3|]. split; vm_compute; reflexivity.
Qed.
(** When the key cannot be made the empty file stays, and no later call succeeds until it is removed. *)
Theorem key_made_good_refuted : exists fs L, reach fs L /\ (forall p, fs p <> None -> p = TIMESTAMPKEY) /\
  (forall e o rc fs', Forall octet (c_random (k_create (o_key o))) -> pam_sm_open_session e o fs = Ok (rc, fs') -> rc <> 0 /\ fs' TIMESTAMPKEY = fs TIMESTAMPKEY).
Proof.
  set (fs := put_file (fun _ => None) TIMESTAMPKEY (Some (mkFile 0 0 true [] 0)) : files). set (c := mkCall (check_env (ex_check 0 0)) 1700000000 14). assert (R : reach fs [c]).
  { apply (ReachOpen (fun _ => None) [] (check_env (ex_check 0 0)) (ex_sess false 100) 14 fs); [apply ReachStart; [reflexivity|discriminate]|apply ex_random|split; vm_compute; congruence|]. reflexivity. }
  exists fs, [c]. split; [exact R|]. split; [intros p H; destruct (list_eq_dec ascii_dec p TIMESTAMPKEY) as [E|E]; [exact E|]; destruct H; unfold fs; apply put_other; exact E|].
  intros e o rc fs' RO H. assert (K : fs TIMESTAMPKEY = Some (mkFile 0 0 true [] 0)) by apply put_same. rewrite K. apply (short_key_refuses fs (mkFile 0 0 true [] 0)) with (e := e) (o := o); try assumption; [|cbn; lia].
  intros p f F. apply (reach_inv _ _ R p f F).
Qed.
(** With another directory a session can write its stamp over the key. *)
Theorem key_kept_refuted : exists e o fs fs' kf, fs TIMESTAMPKEY = Some kf /\ octet_file kf /\ (20 <= length (f_data kf))%nat /\ pam_sm_open_session e o fs = Ok (0, fs') /\ fs' TIMESTAMPKEY <> Some kf.
Proof.
  set (e := mkEnv [lit "timestampdir=/var/run"] (Some (lit "pam_timestamp")) (Some (lit "pam_timestamp")) (Some (lit "_pam_timestamp_key")) None None None None root_dirs).
  assert (D : directory (e_args e) (lit "/var/run")) by (apply (DirOption [] (lit "/var/run") []); intros x []).
  assert (N : named e (lit "pam_timestamp") (lit "pam_timestamp") TIMESTAMPKEY).
  { apply Named with (d := lit "/var/run") (t := lit "_pam_timestamp_key"); try reflexivity; try discriminate; try exact D.
    - split; [intros p _; right; eexists; split; [reflexivity|]; repeat split; reflexivity|intros; discriminate].
    - apply ReqItem; [reflexivity|discriminate|discriminate|discriminate|cbv; intuition discriminate].
    - exists (lit "_pam_timestamp_key"). split; [apply FirstHere; discriminate|]. split; [apply BasePlain; cbv; intuition discriminate|]. split; [discriminate|]. split; discriminate.
    - apply (PathSelf (lit "/var/run") (lit "pam_timestamp") (lit "_pam_timestamp_key")). }
  assert (ND : ~ directory (e_args e) []) by (intros X; apply dir_unique in X; apply dir_unique in D; rewrite D in X; discriminate).
  destruct (session_stamps e (ex_sess true 100) ex_start _ _ _ ex_key N ND) as (f & H & _ & _ & FD & _); [unfold lucky_session, lucky_key; cbn; repeat split; auto; try lia; repeat apply Forall_cons; try apply Forall_nil; discriminate|apply put_same|apply ex_key_octets|cbn; lia|].
  exists e, (ex_sess true 100), ex_start, (put_file ex_start TIMESTAMPKEY (Some f)), ex_key. split; [apply put_same|]. split; [apply ex_key_octets|]. split; [cbn; lia|]. split; [exact H|]. rewrite put_same. intro E. assert (E' : f_data f = f_data ex_key) by congruence.
  apply (f_equal (@length Z)) in E'. rewrite FD in E'. destruct (stamp_octets (f_data ex_key) TIMESTAMPKEY (o_now (ex_sess true 100))) as [_ LS]. rewrite LS in E'. apply (f_equal (fun n => (n =? 70)%nat)) in E'. vm_compute in E'. discriminate E'.
Qed.

(** ** Examples *)
Example target_example : check_main (mkCheck 1 0 false (Some (lit "../x")) true true (Some (lit "/dev/pts/3")) None None (Some (lit "joe")) true root_dirs [] 0 true) (fun _ => None) = Ok (4, fun _ => None) /\ In "/"%char (lit "../x").
Proof. split; [reflexivity|]. cbv. auto. Qed.
Example random_key_example : exists fs', hmac_key_read (ex_luck true) (fun _ => None) = (fs', Some (repeat 9 64)) /\ fs' TIMESTAMPKEY = Some (mkFile 0 0 true (repeat 9 64) 0).
Proof. eexists. split; [reflexivity|]. reflexivity. Qed.
Lemma ex_looks : forall fs f, fs ex_path = Some f -> f_mtime f = 1700000000 -> check_main (ex_check 0 1700000200) fs = Ok (0, fs) /\ check_main (ex_check 1 1700000200) fs = Ok (0, put_file fs ex_path None).
Proof.
  intros fs f P M. assert (A : forall k, (k <= 1)%nat -> check_main (ex_check k 1700000200) fs = if (0 <? k)%nat then match fs ex_path with Some _ => Ok (0, put_file fs ex_path None) | None => Ok (0, fs) end
    else match fs ex_path with None => Ok (7, fs) | Some f => if negb (check_login_time [mkUt true (lit "joe") 1699990000] (lit "joe") (f_mtime f) =? PAM_SUCCESS) then Ok (7, fs) else bind (timestamp_good (f_mtime f) 1700000200 300) (fun g => Ok (if g =? PAM_SUCCESS then 0 else 7, fs)) end).
  { intros [|[|k]] L; [reflexivity|reflexivity|lia]. }
  rewrite !A by lia. rewrite P, M. split; reflexivity.
Qed.
(** A session, and an authentication 200 seconds later that succeeds. *)
Example session_example : exists fs c, reach fs [c] /\ c_rc c = 0 /\ (forall r u, ~ named (check_env (ex_check 0 0)) r u TIMESTAMPKEY) /\
  pam_sm_authenticate (check_env (ex_check 0 0)) (ex_auth 1700000200) fs = Ok (0, fs) /\ check_main (ex_check 0 1700000200) fs = Ok (0, fs) /\ exists fs', check_main (ex_check 1 1700000200) fs = Ok (0, fs').
Proof.
  destruct (ex_named 0 0) as [N ND]. destruct ex_short as (S1 & S2 & S3).
  destruct (session_stamps (check_env (ex_check 0 0)) (ex_sess true 100) ex_start _ _ _ ex_key N ND S2 (ex_reach_key _ ex_reach) ex_key_octets ltac:(cbn; lia)) as (f & H & FU & FG & FD & FM & FR).
  assert (T : time_t (o_now (ex_sess true 100))) by (split; vm_compute; congruence). pose proof (ReachOpen _ _ _ (ex_sess true 100) _ _ ex_reach (ex_random true) T H) as R.
  eexists. eexists. split; [exact R|]. split; [reflexivity|]. split; [intros r u; apply default_not_key; intros x []|]. split.
  - assert (PK : ex_path <> TIMESTAMPKEY) by discriminate. assert (V1 : time_value (o_now (ex_sess true 100))) by (split; vm_compute; congruence). assert (V2 : time_value (a_now (ex_auth 1700000200))) by (split; vm_compute; congruence).
    assert (V3 : time_value (fold_left timeout_arg (e_args (check_env (ex_check 0 0))) 300)) by (split; vm_compute; congruence).
    assert (W : in_window (fold_left timeout_arg (e_args (check_env (ex_check 0 0))) 300) (o_now (ex_sess true 100)) (a_now (ex_auth 1700000200))) by (split; vm_compute; congruence).
    refine (session_then_accepted [] ex_start _ (ex_sess true 100) _ _ _ ex_path _ _ _ _ _ ex_reach (ex_random true) T N ND PK H (LaterNow _ _) N ND S3 V1 V2 V3 W _ _).
    + intros x [<-|[]] _. cbn. lia.
    + exists (mkUt true (lit "joe") 1699990000). split; [left; reflexivity|]. split; [split; reflexivity|cbn; lia].
  - destruct (ex_looks (put_file ex_start ex_path (Some f)) f (put_same _ _ _) FM) as [A B]. split; [exact A|]. eexists. exact B.
Qed.
Print Assumptions success_needs_session. Print Assumptions default_not_key. Print Assumptions accepted_file. Print Assumptions session_stamps. Print Assumptions session_then_accepted.
Print Assumptions target_plain. Print Assumptions key_from_random. Print Assumptions check_needs_session. Print Assumptions removed_refused. Print Assumptions check_agrees_refuted. Print Assumptions key_made_good_refuted. Print Assumptions key_kept_refuted.
