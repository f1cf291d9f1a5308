(** C75: the hashes pam_unix makes for new passwords. *)
From Coq Require Import String Ascii List Arith NArith ZArith Bool Lia.
From Verif Require Import Base Num_Model Str_Model Opt_Model Unixctl_Model Unix_Model Md5_Model Unixset_Model.
From Verif Require Import Hash_Spec Md5_Props Md5crypt_Props Unixpw_Props.
From Verif Require Opt_Facts.
Import ListNotations.
Local Open Scope Z_scope.

(** The 64 characters of salts. *)
Definition alphabet : cstr := lit "./0123456789ABCDEFGHIJKLMNOPQRSTUVWXYZabcdefghijklmnopqrstuvwxyz".

Lemma i64c_nth : forall i, 0 <= i < 64 -> i64c i = nth (Z.to_nat i) alphabet NUL.
Proof.
  intros i H. assert (A : forall n, (n < 64)%nat -> i64c (Z.of_nat n) = nth n alphabet NUL).
  { intros n L. do 64 (destruct n as [|n]; [reflexivity|]). lia. }
  specialize (A (Z.to_nat i)). rewrite Z2Nat.id in A by lia. apply A. lia.
Qed.
Lemma low6 : forall z, 0 <= Z.land z 63 < 64 /\ Z.land z 63 = z mod 64.
Proof. intro z. change 63 with (Z.ones 6). rewrite Z.land_ones by lia. change (2 ^ 6) with 64. split; [apply Z.mod_pos_bound; lia|reflexivity]. Qed.

(** Salts consist of as many characters of the alphabet as asked for, and carry six bits of every random byte: two of them are equal only when
    those bits are. *)
Theorem salt_meaning : forall rnd n, length (make_salt rnd n) = n /\ (forall c, In c (make_salt rnd n) -> In c alphabet) /\
  (forall i, (i < n)%nat -> nth i (make_salt rnd n) NUL = nth (Z.to_nat (rnd i mod 64)) alphabet NUL) /\
  forall rnd', make_salt rnd n = make_salt rnd' n <-> forall i, (i < n)%nat -> rnd i mod 64 = rnd' i mod 64.
Proof.
  assert (N : forall rnd n i, (i < n)%nat -> nth i (make_salt rnd n) NUL = nth (Z.to_nat (rnd i mod 64)) alphabet NUL).
  { intros rnd n i L. unfold make_salt. rewrite (nth_indep _ NUL (i64c (Z.land (rnd 0%nat) 63))) by (rewrite map_length, seq_length; exact L).
    rewrite (map_nth (fun i => i64c (Z.land (rnd i) 63)) (seq 0 n) 0%nat). rewrite seq_nth by exact L. cbn [Nat.add]. destruct (low6 (rnd i)) as [B E]. rewrite i64c_nth by exact B. rewrite E. reflexivity. }
  intros rnd n. split; [unfold make_salt; rewrite map_length; apply seq_length|]. split.
  - intros c I. unfold make_salt in I. apply in_map_iff in I. destruct I as (i & <- & _). destruct (low6 (rnd i)) as [B _]. rewrite i64c_nth by exact B. apply nth_In. change (length alphabet) with 64%nat. lia.
  - split; [intros; apply N; assumption|]. intros rnd'. split.
    + intros E i L. pose proof (N rnd n i L) as A. pose proof (N rnd' n i L) as B. rewrite E in A. rewrite A in B.
      assert (ND : NoDup alphabet) by apply itoa_nodup. rewrite NoDup_nth in ND. pose proof (Z.mod_pos_bound (rnd i) 64 eq_refl). pose proof (Z.mod_pos_bound (rnd' i) 64 eq_refl).
      specialize (ND (Z.to_nat (rnd i mod 64)) (Z.to_nat (rnd' i mod 64))). change (length alphabet) with 64%nat in ND. specialize (ND ltac:(lia) ltac:(lia) B). lia.
    + intros E. unfold make_salt. apply map_ext_in. intros i I. apply in_seq in I. destruct (low6 (rnd i)) as [_ A]. destruct (low6 (rnd' i)) as [_ B]. rewrite A, B, E by lia. reflexivity.
Qed.

(** ** A hash is accepted for its password *)
(** What crypt is taken to do: hashes of the other methods are their own salts. *)
Definition own_salt (crypt : cstr -> cstr -> option cstr) : Prop :=
  forall p s h, hd_error h = Some "$"%char -> crypt p s = Some h -> crypt p h = Some h.
(** Traditional hashes: two characters of salt select a function whose values have eleven characters, and what follows them does not matter. *)
Definition traditional (crypt : cstr -> cstr -> option cstr) : Prop :=
  forall p a b r, In a alphabet -> In b alphabet -> exists t, length t = 11%nat /\ (forall c, In c t -> In c alphabet) /\
    crypt p [a; b] = Some (a :: b :: t) /\ crypt p (a :: b :: r) = Some (a :: b :: t).

Section Accept.
Variable crypt : cstr -> cstr -> option cstr.
Variable hf big : bool.
Variable junk : list Z.
Hypothesis good : hf = true \/ big = false.
Hypothesis junk64 : length junk = 64%nat.
Hypothesis selfsalt : own_salt crypt.
Hypothesis trad : traditional crypt.
Notation md5 := (as_crypt (crypt_md5 hf big junk true)).
Notation create := (create_hash crypt md5).

Lemma alphabet_hash : forall c, In c alphabet -> hash_char c = true.
Proof. apply Forall_forall. repeat constructor. Qed.
Lemma alphabet_plain : forall c, In c alphabet -> c <> "$"%char /\ c <> "*"%char /\ c <> "!"%char /\ c <> NUL.
Proof. apply Forall_forall. repeat constructor; discriminate. Qed.
Lemma two_salt : forall rnd, exists a b, make_salt rnd 2 = [a; b] /\ In a alphabet /\ In b alphabet.
Proof.
  intros rnd. destruct (salt_meaning rnd 2) as (L & I & _). destruct (make_salt rnd 2) as [|a [|b [|]]]; try discriminate.
  exists a, b. split; [reflexivity|]. split; apply I; cbn; auto.
Qed.
Lemma strncpy_exact : forall n s, length s = n -> strncpy n s = s.
Proof. intros n s L. unfold strncpy. rewrite L, Nat.sub_diag, <- L, firstn_all, app_nil_r. reflexivity. Qed.
Lemma cut_plain : forall s, (forall c, In c s -> In c alphabet) -> Unix_Model.cut s = s.
Proof.
  induction s as [|c s IH]; intros A; [reflexivity|]. cbn [Unix_Model.cut]. replace (Ascii.eqb c NUL) with false.
  - rewrite IH; [reflexivity|]. intros x I. apply A. right. exact I.
  - symmetry. apply Ascii.eqb_neq. apply (alphabet_plain c). apply A. left. reflexivity.
Qed.
Lemma tail_salt : forall out, (13 <= length out)%nat -> (forall c, In c out -> In c alphabet) -> exists a b r, Unix_Model.cut (skipn (length out - 11) out) = a :: b :: r /\ In a alphabet /\ In b alphabet.
Proof.
  intros out L A. assert (AS : forall c, In c (skipn (length out - 11) out) -> In c alphabet).
  { intros c I. apply A. rewrite <- (firstn_skipn (length out - 11) out). apply in_or_app. right. exact I. }
  rewrite cut_plain by exact AS. assert (LS : length (skipn (length out - 11) out) = 11%nat) by (rewrite skipn_length; lia).
  destruct (skipn (length out - 11) out) as [|a [|b r]]; try discriminate. exists a, b, r. split; [reflexivity|]. split; apply AS; cbn; auto.
Qed.
Lemma big_chars : forall n out plain, (13 <= length out)%nat -> (forall c, In c out -> In c alphabet) ->
  exists o, big_loop crypt n out plain = Ok (Some (out ++ o)) /\ length o = (11 * n)%nat /\ (forall c, In c o -> In c alphabet).
Proof.
  induction n as [|n IH]; intros out plain L A; cbn [big_loop].
  - exists []. rewrite app_nil_r. split; [reflexivity|]. split; [reflexivity|intros c []].
  - destruct (tail_salt out L A) as (a & b & r & -> & IA & IB). destruct (trad plain a b r IA IB) as (t & LT & AT & _ & ->).
    replace (length (a :: b :: t) <? 2)%nat with false by (cbn [length]; symmetry; apply Nat.ltb_ge; lia). change (skipn 2 (a :: b :: t)) with t. rewrite strncpy_exact by exact LT.
    destruct (IH (out ++ t)%list (skipn 8 plain)) as (o & -> & LO & AO); [rewrite app_length; lia|intros c I; apply in_app_or in I; destruct I; auto|].
    exists (t ++ o)%list. rewrite app_assoc. split; [reflexivity|]. split; [rewrite app_length; lia|]. intros c I. apply in_app_or in I. destruct I; auto.
Qed.
(** bigcrypt with two characters of salt, and again with its value in place of the salt. *)
Lemma bigcrypt_again : forall key a b, In a alphabet -> In b alphabet -> exists h, bigcrypt crypt true key [a; b] = Ok (Some (a :: b :: h)) /\ (11 <= length h)%nat /\
  (forall c, In c h -> In c alphabet) /\ (length h = 11%nat \/ bigcrypt crypt true key (a :: b :: h) = Ok (Some (a :: b :: h))) /\
  (length h = 11%nat -> (length key <= 8)%nat).
Proof.
  intros key a b IA IB. unfold bigcrypt. cbn [length Nat.eqb]. set (k := firstn 130 key).
  set (n := if (16 <? (if (length k =? 0)%nat then 1 else 1 + (length k - 1) / 8))%nat then 16%nat else if (length k =? 0)%nat then 1%nat else (1 + (length k - 1) / 8)%nat).
  destruct (trad k a b [] IA IB) as (t & LT & AT & E & _). rewrite E.
  assert (A13 : forall c, In c (a :: b :: t) -> In c alphabet) by (intros c [<-|[<-|I]]; auto).
  rewrite strncpy_exact by (cbn [length]; lia). destruct (big_chars (n - 1) (a :: b :: t) (skipn 8 k)) as (o & EB & LO & AO); [cbn [length]; lia|exact A13|].
  assert (CC : forall c, In c (t ++ o) -> In c alphabet) by (intros c I; apply in_app_or in I; destruct I; auto).
  assert (EC : option_map Unix_Model.cut (Some ((a :: b :: t) ++ o)%list) = Some (a :: b :: (t ++ o))%list).
  { cbn [option_map app]. f_equal. apply cut_plain. intros c [<-|[<-|I]]; auto. }
  exists (t ++ o)%list. split; [rewrite EB; cbn [bind]; rewrite EC; reflexivity|]. split; [rewrite app_length; lia|]. split; [exact CC|]. split.
  - destruct (Nat.eq_dec (length (t ++ o)) 11) as [L|L]; [left; exact L|right].
    replace (length (t ++ o) =? 11)%nat with false by (symmetry; apply Nat.eqb_neq; lia). fold k. fold n.
    destruct (trad k a b (t ++ o) IA IB) as (t' & _ & _ & E' & ->). rewrite E in E'. injection E' as <-. rewrite strncpy_exact by (cbn [length]; lia). rewrite EB. cbn [bind]. rewrite EC. reflexivity.
  - intros L. rewrite app_length in L. assert (n <= 1)%nat by lia. unfold n in H. assert (LK : length k = Nat.min 130 (length key)) by apply firstn_length.
    destruct (Nat.eqb_spec (length k) 0) as [Z0|Z0]; [lia|].
    destruct (Nat.ltb_spec 16 (1 + (length k - 1) / 8)); [lia|]. assert ((length k - 1) / 8 = 0)%nat by lia. apply Nat.div_small_iff in H1; lia.
Qed.

Lemma strip_plain : forall h, (forall c, In c h -> In c alphabet) -> effective h h.
Proof.
  intros h A. apply EffClean.
  - destruct h as [|c h]; [discriminate|]. cbn. intros E. injection E as ->. destruct (alphabet_plain "$"%char) as [N _]; [apply A; left; reflexivity|congruence].
  - intros c I. apply alphabet_hash. apply A. rewrite <- (firstn_skipn 13 h). apply in_or_app. right. exact I.
Qed.

(** The new hash belongs to the password: whoever checks it later with this password succeeds. *)
Theorem new_hash_accepted : forall old rnd salt mem pw ctrl rounds h nullok, pw <> [] -> Z.of_nat (length pw) < 2 ^ 31 ->
  create rnd salt mem pw ctrl rounds = Ok (Some h) -> verify_hash crypt md5 old true (Some pw) h nullok = Ok 0.
Proof.
  intros old rnd salt mem pw ctrl rounds h nullok NE LP H. unfold create_hash in H. destruct (on MD5_PASS ctrl).
  - unfold md5_wrapper in H. destruct mem; [|discriminate]. remember (lit "$1$" ++ make_salt rnd 8)%list as s0 eqn:Es0. clear Es0. assert (H' : md5 pw s0 = Some h) by congruence.
    apply (stored_hash_accepted hf big junk good junk64) with (salt := s0); [exact NE|exact LP|]. unfold as_crypt in H'. destruct (crypt_md5 hf big junk true pw s0) as [o| |]; [rewrite H'; reflexivity|discriminate|discriminate].
  - destruct (algoid ctrl) as [a|] eqn:EA.
    + destruct mem; [|discriminate]. destruct (crypt pw (salt a rounds)) as [sp|] eqn:EC; [|discriminate]. destruct (is_prefix a sp) eqn:EP; [|discriminate]. injection H as <-.
      assert (HD : hd_error sp = Some "$"%char /\ is_prefix (lit "$1$") sp = false).
      { unfold algoid in EA. repeat match type of EA with (if ?c then _ else _) = _ => destruct c end; try discriminate EA; apply Opt_Facts.is_prefix_iff in EP; destruct EP as (r & ->); injection EA as <-; split; reflexivity. }
      destruct HD as [HD N1]. destruct sp as [|c sp]; [discriminate|]. cbn in HD. injection HD as ->. apply right_is_accepted.
      apply RightHash with (e := "$"%char :: sp); [apply EffDollar|discriminate|left; exact NE|discriminate|discriminate|].
      apply GivesOther; [exact N1|left; reflexivity|]. apply (selfsalt pw (salt a rounds)); [reflexivity|exact EC].
    + destruct (two_salt rnd) as (x & y & ES & IX & IY). rewrite ES in H. destruct mem; [|discriminate].
      match type of H with bigcrypt _ _ ?k _ = _ => remember k as key eqn:EK end.
      destruct (bigcrypt_again key x y IX IY) as (t & E & LT & AT & AG & LK). rewrite E in H. injection H as <-.
      assert (AA : forall c, In c (x :: y :: t) -> In c alphabet) by (intros c [<-|[<-|I]]; auto).
      destruct (alphabet_plain x IX) as (X1 & X2 & X3 & _).
      apply right_is_accepted. apply RightHash with (e := x :: y :: t); [apply strip_plain; exact AA|discriminate|left; exact NE|cbn; congruence|cbn; congruence|].
      destruct (Nat.eq_dec (length t) 11) as [L|L].
      * assert (G : gives crypt md5 old pw (x :: y :: t) (if (length (x :: y :: t) =? 13)%nat then firstn 13 (x :: y :: t) else (x :: y :: t))).
        { apply GivesBig; [cbn; congruence|cbn [length]; lia|]. rewrite (bigcrypt_traditional crypt pw (x :: y :: t)) by (cbn [length]; lia).
          assert (E8 : firstn 8 key = firstn 8 pw).
          { rewrite EK. destruct (off BIGCRYPT ctrl && (8 <? length pw)%nat); [rewrite firstn_firstn; reflexivity|reflexivity]. }
          pose proof (LK L) as L8. unfold bigcrypt in E. cbn [length Nat.eqb] in E. rewrite (firstn_all2 key) in E by lia. rewrite (firstn_all2 key) in E8 by lia. rewrite <- E8.
          destruct (trad key x y t IX IY) as (t' & LT' & AT' & E1 & ->). rewrite E1 in E. rewrite strncpy_exact in E by (cbn [length]; lia).
          destruct (big_chars ((if (16 <? (if (length key =? 0)%nat then 1 else 1 + (length key - 1) / 8))%nat then 16%nat else if (length key =? 0)%nat then 1%nat else (1 + (length key - 1) / 8)%nat) - 1) (x :: y :: t') (skipn 8 key)) as (o & EB & LO & AO); [cbn [length]; lia|intros c [<-|[<-|I]]; auto|].
          rewrite EB in E. cbn [bind option_map] in E. rewrite cut_plain in E by (intros c I; apply in_app_or in I; destruct I as [[<-|[<-|I]]|I]; auto). injection E as E. subst t. rewrite app_length in L.
          assert (o = []) by (destruct o; [reflexivity|cbn [length] in L; lia]). subst o. rewrite app_nil_r in *. cbn [option_map]. rewrite strncpy_exact by (cbn [length]; lia). rewrite cut_plain by exact AA. reflexivity. }
        assert (L13 : length (x :: y :: t) = 13%nat) by (cbn [length]; lia). rewrite L13 in G. cbn [Nat.eqb] in G. rewrite <- L13 in G. rewrite firstn_all in G. exact G.
      * destruct AG as [AG|AG]; [congruence|].
        assert (EK' : key = pw).
        { rewrite EK. destruct (off BIGCRYPT ctrl && (8 <? length pw)%nat) eqn:EO; [|reflexivity]. exfalso. apply L. rewrite EK in E. clear AG.
          unfold bigcrypt in E. cbn [length Nat.eqb] in E. rewrite firstn_firstn in E. change (Nat.min 130 8) with 8%nat in E. assert (LF : length (firstn 8 pw) = 8%nat) by (apply andb_true_iff in EO; destruct EO as [_ EO]; apply Nat.ltb_lt in EO; rewrite firstn_length; lia).
          rewrite LF in E. destruct (trad (firstn 8 pw) x y [] IX IY) as (t' & LT' & AT' & E1 & _). rewrite E1 in E. rewrite strncpy_exact in E by (cbn [length]; lia). cbn -[skipn Unix_Model.cut] in E.
          rewrite cut_plain in E by (intros c [<-|[<-|I]]; auto). injection E as <-. exact LT'. }
        rewrite EK' in *. assert (G : gives crypt md5 old pw (x :: y :: t) (if (length (x :: y :: t) =? 13)%nat then firstn 13 (x :: y :: t) else (x :: y :: t))).
        { apply GivesBig; [cbn; congruence|cbn [length]; lia|exact AG]. }
        replace (length (x :: y :: t) =? 13)%nat with false in G by (symmetry; apply Nat.eqb_neq; cbn [length]; lia). exact G.
Qed.

(** The method that was asked for is used, or there is no hash at all: the first character sequence tells. *)
Definition method_mark (ctrl : N) (m : cstr) : Prop :=
  (on MD5_PASS ctrl = true /\ m = lit "$1$") \/
  (on MD5_PASS ctrl = false /\ exists n opt, nth_error [(YESCRYPT, "$y$"%string); (GOST_YESCRYPT, "$gy$"%string); (BLOWFISH_PASS, "$2b$"%string); (SHA256_PASS, "$5$"%string); (SHA512_PASS, "$6$"%string)] n = Some (opt, string_of_list_ascii m) /\
     on opt ctrl = true /\ forall j o s, (j < n)%nat -> nth_error [(YESCRYPT, "$y$"%string); (GOST_YESCRYPT, "$gy$"%string); (BLOWFISH_PASS, "$2b$"%string); (SHA256_PASS, "$5$"%string); (SHA512_PASS, "$6$"%string)] j = Some (o, s) -> on o ctrl = false).
Theorem new_hash_method : forall rnd salt mem pw ctrl rounds m, Z.of_nat (length pw) < 2 ^ 31 -> method_mark ctrl m ->
  create rnd salt mem pw ctrl rounds = Ok None \/ exists r, create rnd salt mem pw ctrl rounds = Ok (Some (m ++ r)%list).
Proof.
  intros rnd salt mem pw ctrl rounds m LP H. unfold create_hash. destruct H as [[-> ->]|[-> (n & opt & E & ON & B)]].
  - unfold md5_wrapper. destruct mem; [|left; reflexivity]. right. unfold as_crypt. destruct (hash_form hf big junk good junk64 pw (lit "$1$" ++ make_salt rnd 8) LP) as (s & e & -> & _). eexists. reflexivity.
  - assert (EA : algoid ctrl = Some m).
    { unfold algoid. rewrite <- (list_ascii_of_string_of_list_ascii m).
      destruct n as [|[|[|[|[|n]]]]]; cbn in E; try (destruct n; discriminate); injection E as <- E; rewrite <- E;
      repeat match goal with |- context [on ?o ctrl] => first [rewrite ON; cbv iota; reflexivity | rewrite (B 0%nat o _ ltac:(lia) eq_refl) | rewrite (B 1%nat o _ ltac:(lia) eq_refl) | rewrite (B 2%nat o _ ltac:(lia) eq_refl) | rewrite (B 3%nat o _ ltac:(lia) eq_refl)] end. }
    rewrite EA. destruct mem; [|left; reflexivity]. destruct (crypt pw (salt m rounds)) as [sp|]; [|left; reflexivity]. destruct (is_prefix m sp) eqn:EP; [|left; reflexivity].
    right. apply Opt_Facts.is_prefix_iff in EP. destruct EP as (r & ->). exists r. reflexivity.
Qed.

(** Without a method the hash is traditional: only the first eight characters count unless bigcrypt was asked for. *)
Theorem traditional_hash : forall rnd salt pw ctrl rounds, on MD5_PASS ctrl = false -> algoid ctrl = None ->
  exists a b h, make_salt rnd 2 = [a; b] /\ create rnd salt true pw ctrl rounds = Ok (Some (a :: b :: h)) /\ (forall c, In c h -> In c alphabet) /\
    (on BIGCRYPT ctrl = false -> length h = 11%nat /\ create rnd salt true (firstn 8 pw) ctrl rounds = Ok (Some (a :: b :: h))).
Proof.
  intros rnd salt pw ctrl rounds M A. unfold create_hash. rewrite M, A. destruct (two_salt rnd) as (a & b & -> & IA & IB).
  destruct (bigcrypt_again (if off BIGCRYPT ctrl && (8 <? length pw)%nat then firstn 8 pw else pw) a b IA IB) as (h & E & L & AH & _ & _). exists a, b, h. split; [reflexivity|]. split; [exact E|]. split; [exact AH|].
  intros O. unfold off in *. rewrite O in *. cbn [negb andb] in *.
  assert (K : (if (8 <? length pw)%nat then firstn 8 pw else pw) = firstn 8 pw) by (destruct (Nat.ltb_spec 8 (length pw)); [reflexivity|rewrite firstn_all2 by lia; reflexivity]).
  assert (K8 : (length (firstn 8 pw) <= 8)%nat) by (rewrite firstn_length; lia). match type of E with bigcrypt _ _ ?k _ = _ => replace k with (firstn 8 pw) in E by (symmetry; exact K) end. replace (8 <? length (firstn 8 pw))%nat with false by (symmetry; apply Nat.ltb_ge; exact K8). split; [|exact E].
  unfold bigcrypt in E. cbn [length Nat.eqb] in E. rewrite firstn_firstn in E. change (Nat.min 130 8) with 8%nat in E. destruct (trad (firstn 8 pw) a b [] IA IB) as (t & LT & AT & E1 & _). rewrite E1 in E.
  rewrite strncpy_exact in E by (cbn [length]; lia).
  assert (N : ((if (16 <? (if (length (firstn 8 pw) =? 0)%nat then 1 else 1 + (length (firstn 8 pw) - 1) / 8))%nat then 16%nat else if (length (firstn 8 pw) =? 0)%nat then 1%nat else (1 + (length (firstn 8 pw) - 1) / 8)%nat) - 1 = 0)%nat).
  { destruct (Nat.eqb_spec (length (firstn 8 pw)) 0); [reflexivity|]. rewrite Nat.div_small by lia. reflexivity. }
  rewrite N in E. cbn [big_loop bind option_map] in E. rewrite cut_plain in E by (intros c [<-|[<-|I]]; auto). injection E as <-. exact LT.
Qed.
End Accept.

(** ** Examples *)
(** A crypt that meets the hypotheses: a dollar sign selects a readable hash, else eleven characters depend on the password. *)
Definition toy (p s : cstr) : option cstr :=
  match s with
  | a :: b :: _ =>
      if Ascii.eqb a "$"%char then Some (lit "$6$" ++ lit "salt$" ++ p)
      else Some (a :: b :: firstn 11 (map (fun c => nth (ord c mod 64) alphabet NUL) (firstn 8 p) ++ repeat "."%char 11))
  | _ => None
  end.
Example toy_hypotheses : own_salt toy /\ traditional toy.
Proof.
  split.
  - intros p s h _ H. unfold toy in H. destruct s as [|a [|b s]]; try discriminate. destruct (Ascii.eqb_spec a "$"%char) as [E|E].
    + injection H as <-. reflexivity.
    + injection H as <-. unfold toy. destruct (Ascii.eqb_spec a "$"%char); [contradiction|reflexivity].
  - intros p a b r IA IB. exists (firstn 11 (map (fun c => nth (ord c mod 64) alphabet NUL) (firstn 8 p) ++ repeat "."%char 11)). split; [rewrite firstn_length, app_length, repeat_length; lia|]. split.
    + intros c I. assert (J : In c (map (fun c => nth (ord c mod 64) alphabet NUL) (firstn 8 p) ++ repeat "."%char 11)) by (rewrite <- (firstn_skipn 11 (map _ _ ++ repeat _ _)%list); apply in_or_app; left; exact I).
      apply in_app_or in J. destruct J as [J|J]; [|apply repeat_spec in J; rewrite J; left; reflexivity]. apply in_map_iff in J. destruct J as (x & <- & _). apply nth_In. change (length alphabet) with 64%nat. apply Nat.mod_upper_bound. lia.
    + destruct (alphabet_plain a IA) as (N & _). unfold toy. destruct (Ascii.eqb_spec a "$"%char); [contradiction|]. split; reflexivity.
Qed.
(** SHA-512: the right mark, and the password is accepted; a traditional hash sees eight characters; bigcrypt all of them. *)
Example hash_example :
  let c := flag_of SHA512_PASS in let rnd := fun i => 77 + Z.of_nat i in let salt := fun a (_ : Z) => a in let md := fun _ _ : cstr => None in
  create_hash toy md rnd salt true (lit "secret") c 5000 = Ok (Some (lit "$6$salt$secret")) /\
  verify_hash toy md md true (Some (lit "secret")) (lit "$6$salt$secret") false = Ok 0 /\
  method_mark c (lit "$6$") /\
  create_hash toy md rnd salt true (lit "averylongone") 0 0 = Ok (Some (lit "BCVqZmtgji...")) /\
  create_hash toy md rnd salt true (lit "averylon") 0 0 = Ok (Some (lit "BCVqZmtgji...")) /\
  verify_hash toy md md true (Some (lit "averylongone")) (lit "BCVqZmtgji...") false = Ok 0 /\
  create_hash toy md rnd salt true (lit "averylongone") (flag_of BIGCRYPT) 0 = Ok (Some (lit "BCVqZmtgji...bjiZ.......")) /\
  verify_hash toy md md true (Some (lit "averylongone")) (lit "BCVqZmtgji...bjiZ.......") false = Ok 0 /\
  verify_hash toy md md true (Some (lit "averylon")) (lit "BCVqZmtgji...bjiZ.......") false = Ok 7.
Proof.
  cbv zeta. split; [vm_compute; reflexivity|]. split; [vm_compute; reflexivity|]. split.
  - right. split; [reflexivity|]. exists 4%nat, SHA512_PASS. split; [reflexivity|]. split; [reflexivity|]. intros j o s L E. do 4 (destruct j as [|j]; [injection E as <- <-; reflexivity|]). lia.
  - repeat split; vm_compute; reflexivity.
Qed.
Print Assumptions salt_meaning.
Print Assumptions new_hash_accepted.
Print Assumptions new_hash_method.
Print Assumptions traditional_hash.
