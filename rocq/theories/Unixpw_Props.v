(** C36, C48: password verification in pam_unix and in unix_chkpwd. *)
From Coq Require Import String Ascii List Arith NArith ZArith Lia Bool.
From Verif Require Import Base Num_Model Inline_Model Inline_Props Unixctl_Model Unix_Model Unixage_Props.
Import ListNotations.
Local Open Scope Z_scope.

Section Pw.
Variable crypt md5_good md5_broken : cstr -> cstr -> option cstr.
Notation bigcrypt := (bigcrypt crypt).
Notation verify_hash := (verify_hash crypt md5_good md5_broken).

(** ** What accepting means *)
(** The characters a traditional hash is made of. *)
Definition hash_char (c : ascii) : bool := existsb (Ascii.eqb c) (lit "ABCDEFGHIJKLMNOPQRSTUVWXYZabcdefghijklmnopqrstuvwxyz0123456789./").
Lemma des_hash_char : forall c, des_char c = hash_char c.
Proof. intros [[] [] [] [] [] [] [] []]; reflexivity. Qed.
(** The hash field without HP-UX password ageing information: what follows a traditional hash from the first character on
    that cannot belong to it. *)
Inductive effective : cstr -> cstr -> Prop :=
| EffDollar : forall r, effective ("$"%char :: r) ("$"%char :: r)
| EffShort : forall h, (length h <= 13)%nat -> effective h h
| EffClean : forall h, hd_error h <> Some "$"%char -> (forall c, In c (skipn 13 h) -> hash_char c = true) -> effective h h
| EffAged : forall a b x r, hd_error (a ++ b) <> Some "$"%char -> length a = 13%nat -> (forall c, In c b -> hash_char c = true) -> hash_char x = false ->
    effective (a ++ b ++ x :: r) (a ++ b).

(** A function the stored hash [h] calls for gives [out] for the password [p]. *)
Inductive gives (p h : cstr) : cstr -> Prop :=
| GivesMd5 : forall o, is_prefix (lit "$1$") h = true -> md5_good p h = Some o -> gives p h o
| GivesMd5Old : forall o o', is_prefix (lit "$1$") h = true -> md5_good p h = Some o' -> md5_broken p h = Some o -> gives p h o
| GivesBig : forall o, hd_error h <> Some "$"%char -> (13 <= length h)%nat -> bigcrypt true p h = Ok (Some o) -> gives p h (if (length h =? 13)%nat then firstn 13 o else o)
| GivesOther : forall o, is_prefix (lit "$1$") h = false -> (hd_error h = Some "$"%char \/ (length h < 13)%nat) -> crypt p h = Some o -> gives p h o.
(** The password is right for the hash field. *)
Inductive right (nullok : bool) (p h : cstr) : Prop :=
| RightEmpty : p = [] -> h = [] -> nullok = true -> right nullok p h
| RightHash : forall e, effective h e -> e <> [] -> (p <> [] \/ nullok = true) -> hd_error e <> Some "*"%char -> hd_error e <> Some "!"%char -> gives p e e -> right nullok p h.

Lemma take_valid_spec : forall s, (forall c, In c (take_valid s) -> hash_char c = true) /\ (take_valid s = s \/ exists x r, s = (take_valid s ++ x :: r)%list /\ hash_char x = false).
Proof.
  induction s as [|c s [IH1 IH2]]; cbn [take_valid]; [|rewrite des_hash_char]; [split; [intros c []|left; reflexivity]|]. destruct (hash_char c) eqn:E.
  - split; [intros x [<-|I]; auto|]. destruct IH2 as [-> |(x & r & Q & F)]; [left; reflexivity|]. right. exists x, r. split; [cbn; rewrite <- Q; reflexivity|exact F].
  - split; [intros x []|]. right. exists c, s. auto.
Qed.
Lemma strip_effective : forall h, effective h (strip_aging h).
Proof.
  intros h. unfold strip_aging. destruct h as [|c h]; [apply EffShort; cbn; lia|]. destruct (Ascii.eqb_spec c "$"%char) as [->|N]; cbn [negb andb]; [apply EffDollar|].
  destruct (Nat.ltb_spec 13 (length (c :: h))) as [L|L]; [|apply EffShort; exact L].
  destruct (take_valid_spec (skipn 13 (c :: h))) as [A [B|(x & r & B & C)]].
  - rewrite B, firstn_skipn. apply EffClean; [cbn [hd_error]; congruence|]. rewrite B in A. exact A.
  - assert (D : (firstn 13 (c :: h) ++ take_valid (skipn 13 (c :: h)) ++ x :: r)%list = c :: h) by (rewrite <- B; apply firstn_skipn).
    rewrite <- D at 1. apply EffAged; auto; [cbn; congruence|rewrite firstn_length; lia].
Qed.
Lemma effective_unique : forall h e, effective h e -> e = strip_aging h.
Proof.
  intros h e H. inversion H as [r|h0 L|h0 N A|a b x r N L A X]; subst.
  - reflexivity.
  - unfold strip_aging. destruct e as [|c t]; [reflexivity|]. replace (13 <? length (c :: t))%nat with false; [rewrite andb_false_r; reflexivity|]. symmetry. apply Nat.ltb_ge. exact L.
  - unfold strip_aging. destruct e as [|c t]; [reflexivity|]. destruct (negb (Ascii.eqb c "$"%char) && (13 <? length (c :: t))%nat); [|reflexivity].
    rewrite <- (firstn_skipn 13 (c :: t)) at 1. f_equal. symmetry. revert A. generalize (skipn 13 (c :: t)). clear. induction l as [|y l IH]; intros A; [reflexivity|]. cbn [take_valid]. rewrite des_hash_char, (A y (or_introl eq_refl)). rewrite IH; [reflexivity|]. intros; apply A; right; assumption.
  - destruct a as [|c a]; [discriminate|]. unfold strip_aging. change (((c :: a) ++ b ++ x :: r)%list) with (c :: (a ++ b ++ x :: r)%list). cbv iota.
    replace (Ascii.eqb c "$"%char) with false by (symmetry; apply Ascii.eqb_neq; cbn in N; congruence).
    replace (13 <? length (c :: (a ++ b ++ x :: r)))%nat with true by (symmetry; apply Nat.ltb_lt; cbn [length] in *; rewrite !app_length; cbn [length]; lia). cbn [negb andb].
    change (c :: (a ++ b ++ x :: r)%list) with ((c :: a) ++ b ++ x :: r)%list. rewrite <- L. rewrite firstn_app, Nat.sub_diag, firstn_all, firstn_O, app_nil_r. rewrite skipn_app, Nat.sub_diag, skipn_all, skipn_O. cbn [app].
    f_equal. f_equal. revert A X. clear. induction b as [|y b IH]; intros A X; cbn [app take_valid]; rewrite des_hash_char; [rewrite X; reflexivity|]. rewrite (A y (or_introl eq_refl)). f_equal. apply IH; [intros; apply A; right; assumption|exact X].
Qed.

Lemma is_dollar : forall h0 h, is_prefix (lit "$1$") (h0 :: h) = true -> Ascii.eqb h0 "$"%char = true.
Proof. intros h0 h H. change (lit "$1$") with ["$"%char; "1"%char; "$"%char] in H. cbn [is_prefix] in H. apply andb_true_iff in H. destruct H as [H _]. rewrite Ascii.eqb_sym. exact H. Qed.
Lemma effective_nil : forall h, strip_aging h = [] <-> h = [].
Proof.
  intros h. split; [|intros ->; reflexivity]. unfold strip_aging. destruct h as [|c h]; [reflexivity|]. destruct (_ && _); discriminate.
Qed.

(** C36.  An accepted password is right for the hash field; and a right one is accepted unless memory is short. *)
Theorem accepted_is_right : forall mem p h nullok, verify_hash mem p h nullok = Ok 0 -> exists w, p = Some w /\ right nullok w h.
Proof.
  intros mem p h nullok H. unfold Unix_Model.verify_hash in H. cbv zeta in H. pose proof (strip_effective h) as EF.
  destruct p as [w|]; [|cbn [andb] in H; destruct (strip_aging h); discriminate]. exists w. split; [reflexivity|].
  assert (NE : w <> [] \/ nullok = true).
  { destruct w; [right|left; discriminate]. destruct nullok; [reflexivity|discriminate]. }
  destruct (strip_aging h) as [|h0 t] eqn:ES.
  - apply (proj1 (effective_nil h)) in ES. subst h. destruct w; [|discriminate]. destruct nullok; [|discriminate]. apply RightEmpty; reflexivity.
  - assert (H' : (if Ascii.eqb h0 "*" || Ascii.eqb h0 "!" then Ok 7 else
        bind (if is_prefix (lit "$1$") (h0 :: t) then
                match md5_good w (h0 :: t) with
                | Some pp => if streq pp (h0 :: t) then Ok (Some pp) else Ok (md5_broken w (h0 :: t))
                | None => Ok None
                end
              else if negb (Ascii.eqb h0 "$"%char) && (13 <=? length (h0 :: t))%nat then
                bind (bigcrypt mem w (h0 :: t)) (fun pp =>
                Ok (match pp with
                    | Some pp => Some (if (length (h0 :: t) =? 13)%nat && (length (h0 :: t) <? length pp)%nat then firstn 13 pp else pp)
                    | None => None
                    end))
              else Ok (if mem then crypt w (h0 :: t) else None))
        (fun pp => Ok (match pp with Some pp => if streq pp (h0 :: t) then 0 else 7 | None => 7 end))) = Ok 0).
    { destruct w; destruct nullok; try exact H; discriminate. } clear H.
    destruct (Ascii.eqb_spec h0 "*") as [->|N1]; [discriminate|]. destruct (Ascii.eqb_spec h0 "!") as [->|N2]; [discriminate|]. cbn [orb] in H'.
    apply (RightHash _ _ _ (h0 :: t)); auto; try (cbn; congruence).
    destruct (is_prefix (lit "$1$") (h0 :: t)) eqn:EP.
    + destruct (md5_good w (h0 :: t)) as [pp|] eqn:EM; [|discriminate]. destruct (streq pp (h0 :: t)) eqn:EE.
      * apply streq_eq in EE. subst pp. apply GivesMd5; assumption.
      * cbn [bind] in H'. destruct (md5_broken w (h0 :: t)) as [q|] eqn:EB; [|discriminate]. destruct (streq q (h0 :: t)) eqn:EQ; [|discriminate]. apply streq_eq in EQ. subst q. eapply GivesMd5Old; eassumption.
    + destruct (Ascii.eqb_spec h0 "$") as [->|N3].
      * cbn [negb andb bind] in H'. destruct mem; [|discriminate]. destruct (crypt w ("$"%char :: t)) as [q|] eqn:EC; [|discriminate]. destruct (streq q ("$"%char :: t)) eqn:EQ; [|discriminate]. apply streq_eq in EQ. subst q.
        apply GivesOther; auto.
      * cbn [negb andb] in H'. destruct (Nat.leb_spec 13 (length (h0 :: t))) as [L|L].
        -- destruct mem; [|discriminate]. destruct (bigcrypt true w (h0 :: t)) as [[pp|]| |] eqn:EB; cbn [bind] in H'; try discriminate.
           match type of H' with context [streq ?x ?y] => destruct (streq x y) eqn:EQ; [|discriminate] end. apply streq_eq in EQ.
           assert (EE : h0 :: t = if (length (h0 :: t) =? 13)%nat then firstn 13 pp else pp).
           { symmetry. destruct (Nat.eqb_spec (length (h0 :: t)) 13) as [E13|]; [|exact EQ]. cbn [andb] in EQ. destruct (Nat.ltb_spec (length (h0 :: t)) (length pp)) as [LL|LL]; [exact EQ|].
             rewrite firstn_all2 by (rewrite E13 in LL; exact LL). exact EQ. }
           assert (G : gives w (h0 :: t) (if (length (h0 :: t) =? 13)%nat then firstn 13 pp else pp)) by (apply GivesBig; auto; cbn; congruence).
           exact (eq_ind_r (fun x : cstr => gives w (h0 :: t) x) G EE).
        -- cbn [bind] in H'. destruct mem; [|discriminate]. destruct (crypt w (h0 :: t)) as [q|] eqn:EC; [|discriminate]. destruct (streq q (h0 :: t)) eqn:EQ; [|discriminate]. apply streq_eq in EQ. subst q.
           apply GivesOther; auto.
Qed.
Theorem right_is_accepted : forall w h nullok, right nullok w h -> verify_hash true (Some w) h nullok = Ok 0.
Proof.
  intros w h nullok R. unfold Unix_Model.verify_hash. cbv zeta. destruct R as [-> -> ->|e EF NE ND NS NX G]; [reflexivity|].
  apply effective_unique in EF. rewrite <- EF. destruct e as [|h0 t]; [congruence|].
  assert (B : (match w with [] => true | _ => false end) && negb nullok = false) by (destruct w, nullok; cbn; auto; destruct ND; congruence).
  rewrite B. cbn [hd_error] in NS, NX. replace (Ascii.eqb h0 "*") with false by (symmetry; apply Ascii.eqb_neq; congruence). replace (Ascii.eqb h0 "!") with false by (symmetry; apply Ascii.eqb_neq; congruence). cbn [orb].
  assert (GI : exists out : cstr, out = h0 :: t /\ gives w (h0 :: t) out) by (exists (h0 :: t); auto). clear G. destruct GI as (out & E & G). destruct G as [o P M|o o' P M M2|o N L BG|o P D C].
  - subst o. rewrite P, M, streq_refl. cbn [bind]. rewrite streq_refl. reflexivity.
  - subst o. rewrite P, M. destruct (streq o' (h0 :: t)) eqn:EO; cbn [bind]; [rewrite EO; reflexivity|]. rewrite M2, streq_refl. reflexivity.
  - cbn [hd_error] in N. assert (N3 : Ascii.eqb h0 "$" = false) by (apply Ascii.eqb_neq; intros Q; apply N; rewrite Q; reflexivity).
    destruct (is_prefix (lit "$1$") (h0 :: t)) eqn:EP; [apply is_dollar in EP; congruence|]. rewrite N3. cbn [negb andb]. rewrite (proj2 (Nat.leb_le _ _) L). rewrite BG. cbn [bind].
    match goal with |- Ok (if streq ?x ?y then _ else _) = _ => replace (streq x y) with true; [reflexivity|] end. symmetry. apply streq_eq.
    destruct (Nat.eqb_spec (length (h0 :: t)) 13) as [E13|]; [|exact E]. cbn [andb]. destruct (Nat.ltb_spec (length (h0 :: t)) (length o)) as [LL|LL]; [exact E|].
    rewrite firstn_all2 in E by (rewrite E13 in LL; exact LL). exact E.
  - subst o. rewrite P. destruct D as [D|D].
    + cbn [hd_error] in D. injection D as ->. cbn [Ascii.eqb Bool.eqb negb andb bind]. rewrite C, streq_refl. reflexivity.
    + rewrite (proj2 (Nat.leb_gt _ _) D), andb_false_r. cbn [bind]. rewrite C, streq_refl. reflexivity.
Qed.

(** Locked and empty hashes. *)
Theorem locked_never_accepted : forall mem p h nullok, hd_error h = Some "*"%char \/ hd_error h = Some "!"%char -> verify_hash mem p h nullok <> Ok 0.
Proof.
  intros mem p h nullok L H. destruct (accepted_is_right _ _ _ _ H) as (w & _ & R). destruct R as [_ -> _|e EF NE _ NS NX _]; [destruct L; discriminate|].
  assert (hd_error e = hd_error h).
  { inversion EF as [r|h0 Q|h0 N A|a b x r N Q A X]; subst; try reflexivity. destruct a; [discriminate|]. reflexivity. }
  destruct L; congruence.
Qed.
Theorem empty_accepted_only_with_nullok : forall mem h, verify_hash mem (Some []) h false <> Ok 0.
Proof. intros mem h H. destruct (accepted_is_right _ _ _ _ H) as (w & E & R). injection E as <-. destruct R as [_ _ Q|e _ _ [Q|Q] _ _ _]; congruence. Qed.
Theorem empty_hash_needs_empty_password : forall mem w nullok, verify_hash mem (Some w) [] nullok = Ok 0 -> w = [] /\ nullok = true.
Proof.
  intros mem w nullok H. destruct (accepted_is_right _ _ _ _ H) as (w' & E & R). injection E as <-. destruct R as [E1 _ E2|e EF NE _ _ _ _]; [auto|]. apply effective_unique in EF. subst e. destruct (NE eq_refl).
Qed.

(** ** bigcrypt *)
Lemma strncpy_length : forall n s, length (strncpy n s) = n.
Proof. intros n s. unfold strncpy. rewrite app_length, firstn_length, repeat_length. lia. Qed.
Lemma big_loop_spec : forall n out plain, (forall k s t, crypt k s = Some t -> (2 <= length t)%nat) ->
  exists o, big_loop crypt n out plain = Ok o /\ (forall b, o = Some b -> length b = (length out + 11 * n)%nat).
Proof.
  induction n as [|n IH]; intros out plain HC; cbn [big_loop].
  - exists (Some out). split; [reflexivity|]. intros b E. injection E as <-. lia.
  - destruct (crypt plain (cut (skipn (length out - 11) out))) as [t|] eqn:E; [|exists None; split; [reflexivity|discriminate]].
    pose proof (HC _ _ _ E) as L. rewrite (proj2 (Nat.ltb_ge _ _) L). destruct (IH (out ++ strncpy 11 (skipn 2 t))%list (skipn 8 plain) HC) as (o & E2 & F). exists o. split; [exact E2|].
    intros b EB. rewrite (F b EB), app_length, strncpy_length. lia.
Qed.
Lemma cut_length : forall b, (length (cut b) <= length b)%nat.
Proof. induction b as [|c b IH]; cbn [cut]; [lia|]. destruct (Ascii.eqb c NUL); cbn [length]; lia. Qed.
(** bigcrypt stays within its buffers (178 bytes and a NUL) and reads nothing outside what crypt returned, if that always
    has at least two characters. *)
Theorem bigcrypt_in_bounds : forall mem key salt, (forall k s t, crypt k s = Some t -> (2 <= length t)%nat) ->
  exists o, bigcrypt mem key salt = Ok o /\ forall b, o = Some b -> (length b <= 178)%nat.
Proof.
  intros mem key salt HC. unfold Unix_Model.bigcrypt. destruct mem; [|exists None; split; [reflexivity|discriminate]]. cbv zeta.
  match goal with |- context [crypt ?k salt] => set (kb := k) end. destruct (crypt kb salt) as [t|] eqn:E; [|exists None; split; [reflexivity|discriminate]].
  match goal with |- context [(?n - 1)%nat] => set (ns := n) end.
  assert (NS : (ns <= 16)%nat) by (subst ns; match goal with |- ((if (16 <? ?x)%nat then _ else _) <= _)%nat => destruct (Nat.ltb_spec 16 x) end; lia).
  destruct (big_loop_spec (ns - 1) (strncpy 13 t) (skipn 8 kb) HC) as (o & -> & F). cbn [bind]. exists (option_map cut o). split; [reflexivity|].
  intros b EB. destruct o as [x|]; [|discriminate]. injection EB as <-. pose proof (cut_length x). rewrite (F x eq_refl), strncpy_length in H. lia.
Qed.
Theorem verify_defined : forall mem p h nullok, (forall k s t, crypt k s = Some t -> (2 <= length t)%nat) -> exists rv, verify_hash mem p h nullok = Ok rv /\ (rv = 0 \/ rv = 7).
Proof.
  intros mem p h nullok HC. unfold Unix_Model.verify_hash. cbv zeta.
  assert (V : forall o : option cstr, exists rv, Ok (match o with Some pp => if streq pp (strip_aging h) then 0 else 7 | None => 7 end) = Ok rv /\ (rv = 0 \/ rv = 7)).
  { intros [pp|]; [destruct (streq pp (strip_aging h))|]; eexists; split; eauto. }
  destruct (match p with Some [] => true | _ => false end) eqn:EE; cbn [andb].
  - destruct nullok; cbn [negb andb]; [|eexists; split; eauto]. destruct (strip_aging h) as [|h0 t]; [eexists; split; eauto|]. destruct p as [w|]; [|discriminate].
    destruct (Ascii.eqb h0 "*" || Ascii.eqb h0 "!"); [eexists; split; eauto|].
    destruct (is_prefix (lit "$1$") (h0 :: t)).
    { destruct (md5_good w (h0 :: t)) as [q|]; [destruct (streq q (h0 :: t))|]; cbn [bind]; first [exact (V (Some q))|exact (V (md5_broken w (h0 :: t)))|exact (V None)]. }
    destruct (negb (Ascii.eqb h0 "$") && (13 <=? length (h0 :: t))%nat); [|cbn [bind]; exact (V (if mem then crypt w (h0 :: t) else None))].
    destruct (bigcrypt_in_bounds mem w (h0 :: t) HC) as (o & -> & _). cbn [bind]. apply V.
  - destruct (strip_aging h) as [|h0 t]; [eexists; split; eauto|]. destruct p as [w|]; [|eexists; split; eauto].
    destruct (Ascii.eqb h0 "*" || Ascii.eqb h0 "!"); [eexists; split; eauto|].
    destruct (is_prefix (lit "$1$") (h0 :: t)).
    { destruct (md5_good w (h0 :: t)) as [q|]; [destruct (streq q (h0 :: t))|]; cbn [bind]; first [exact (V (Some q))|exact (V (md5_broken w (h0 :: t)))|exact (V None)]. }
    destruct (negb (Ascii.eqb h0 "$") && (13 <=? length (h0 :: t))%nat); [|cbn [bind]; exact (V (if mem then crypt w (h0 :: t) else None))].
    destruct (bigcrypt_in_bounds mem w (h0 :: t) HC) as (o & -> & _). cbn [bind]. apply V.
Qed.
(** With a traditional 13-character hash only the first eight characters of the password matter. *)
Theorem des_reads_eight : forall mem p h nullok, length (strip_aging h) = 13%nat -> hd_error h <> Some "$"%char ->
  verify_hash mem (Some p) h nullok = verify_hash mem (Some (firstn 8 p)) h nullok.
Proof.
  intros mem p h nullok L N. unfold Unix_Model.verify_hash. cbv zeta.
  replace (match firstn 8 p with [] => true | _ => false end) with (match p with [] => true | _ => false end) by (destruct p; reflexivity).
  destruct (match p with [] => true | _ => false end && negb nullok); [reflexivity|]. destruct (strip_aging h) as [|h0 t] eqn:ES; [discriminate|].
  destruct (Ascii.eqb h0 "*" || Ascii.eqb h0 "!"); [reflexivity|].
  assert (D : Ascii.eqb h0 "$" = false).
  { apply Ascii.eqb_neq. intros ->. apply N. unfold strip_aging in ES. destruct h as [|c h]; [discriminate|]. destruct (negb (Ascii.eqb c "$") && (13 <? length (c :: h))%nat); injection ES as -> _; reflexivity. }
  destruct (is_prefix (lit "$1$") (h0 :: t)) eqn:EP; [apply is_dollar in EP; congruence|]. rewrite D. rewrite L. cbn [negb andb Nat.leb].
  assert (BB : bigcrypt mem p (h0 :: t) = bigcrypt mem (firstn 8 p) (h0 :: t)).
  { unfold Unix_Model.bigcrypt. rewrite L. cbn [Nat.eqb]. rewrite !firstn_firstn. reflexivity. }
  rewrite BB. reflexivity.
Qed.
(** bigcrypt with a traditional salt is crypt of the first eight characters. *)
Theorem bigcrypt_traditional : forall key salt, length salt = 13%nat ->
  bigcrypt true key salt = Ok (option_map (fun t => cut (strncpy 13 t)) (crypt (firstn 8 key) salt)).
Proof.
  intros key salt L. unfold Unix_Model.bigcrypt. rewrite L. cbn [Nat.eqb]. rewrite firstn_firstn. change (Nat.min 8 130) with 8%nat. cbv zeta.
  assert (LK : (length (firstn 8 key) <= 8)%nat) by (rewrite firstn_length; lia). destruct (crypt (firstn 8 key) salt) as [t|]; [|reflexivity].
  match goal with |- context [big_loop crypt ?n _ _] => replace n with 0%nat; [reflexivity|] end.
  destruct (Nat.eqb_spec (length (firstn 8 key)) 0) as [E|E]; [reflexivity|]. rewrite Nat.div_small by lia. reflexivity.
Qed.

(** ** The helper *)
Section Helper.
Variable fuel : nat.
Notation helper_verify := (helper_verify crypt md5_good md5_broken).
Notation chkpwd := (chkpwd crypt md5_good md5_broken).
Notation run_helper := (run_helper crypt md5_good md5_broken fuel).

(** The hash field that counts for a user, for a process that may ([priv]) or may not read the shadow file. *)
Definition stored (d : db) (priv : bool) (name h : cstr) : Prop :=
  exists pw, getpw d name = Some pw /\ if shadow_mark pw then exists s, getsp d priv name = Some s /\ sp_pwdp s = Some h else h = pw_passwd pw.

Lemma helper_hash : forall mem priv d name rv pw h, hash_of mem (account_info_helper priv d name) = (rv, Some pw, Some h) -> stored d priv name h.
Proof.
  intros mem priv d name rv pw h H. unfold account_info_helper in H. destruct (getpw d name) as [p|] eqn:G; [|discriminate]. exists p. split; [exact G|].
  rewrite is_shadowed_mark in H. destruct (shadow_mark p).
  - destruct (getsp d priv name) as [s|]; [|discriminate]. exists s. split; [reflexivity|]. destruct (sp_pwdp s) as [x|] eqn:E; [|discriminate]. unfold hash_of in H. cbn in H. rewrite E in H. destruct mem; [|discriminate]. congruence.
  - unfold hash_of in H. cbn in H. destruct mem; [|discriminate]. congruence.
Qed.
Lemma helper_hash_conv : forall priv d name h, stored d priv name h -> exists pw, hash_of true (account_info_helper priv d name) = (0, Some pw, Some h).
Proof.
  intros priv d name h (pw & G & S). exists pw. unfold account_info_helper. rewrite G, is_shadowed_mark. destruct (shadow_mark pw); [|subst h; reflexivity]. destruct S as (s & -> & E). rewrite E. unfold hash_of. cbn. rewrite E. reflexivity.
Qed.

Lemma cut_app : forall p t, is_cstr p -> cut (p ++ NUL :: t) = p.
Proof.
  induction p as [|c p IH]; intros t H; cbn [app cut]; [reflexivity|]. destruct (Ascii.eqb_spec c NUL) as [->|N]; [destruct (H (or_introl eq_refl))|]. rewrite IH; [reflexivity|]. intros I. apply H. right. exact I.
Qed.
Lemma is_cstr_firstn : forall n p, is_cstr p -> is_cstr (firstn n p).
Proof. unfold is_cstr. intros n p H I. apply H. revert I. clear. revert p. induction n; intros [|c p] I; cbn in *; auto; try contradiction. destruct I; auto. Qed.
Lemma cstr_split : forall p q a b : cstr, is_cstr p -> is_cstr q -> (p ++ NUL :: a = q ++ NUL :: b)%list -> p = q.
Proof.
  intros p q a b P Q E. rewrite <- (cut_app p a P), E. apply cut_app. exact Q.
Qed.

(** The helper gets the password whole or, when reading fails, none. *)
Lemma read_pass_sent : forall buf plan p, is_cstr p -> length buf = CAP -> (length plan + 514 < fuel)%nat ->
  exists w, read_pass fuel buf (mkSrc (sent (Some p)) plan) = Ok w /\ (w = firstn 512 p \/ w = []) /\ (~ In KFail plan -> ~ In KZero plan -> w = firstn 512 p).
Proof.
  intros buf plan p C L FU. unfold read_pass. pose proof (is_cstr_firstn 512 p C) as C5.
  destruct (passwords_handed_over fuel 1 [buf] (mkSrc (sent (Some p)) plan)) as (pws & rest & bufs' & s' & E & FC & LE & AV & LB & BB & GOOD).
  - cbn. lia.
  - constructor; auto.
  - unfold sent. cbn [avail Inline_Model.plan]. rewrite app_length, firstn_length. cbn [length]. lia.
  - rewrite E. cbn [bind]. destruct pws as [|q pws].
    + cbn [length Nat.eqb]. exists []. split; [reflexivity|]. split; [auto|]. intros K1 K2. destruct (GOOD K1 K2) as [Q|Q]; [discriminate|]. exfalso. apply Q. cbn [map concat app] in AV. rewrite <- AV. unfold sent. cbn [avail].
      rewrite firstn_all2 by (rewrite app_length, firstn_length; cbn [length]; unfold CAP; lia). apply in_or_app. right. left. reflexivity.
    + destruct pws as [|x y]; [|cbn in LE; lia]. cbn [length Nat.eqb]. destruct bufs' as [|b' bufs']; [discriminate|]. specialize (BB 0%nat buf b' eq_refl eq_refl). cbn in BB. destruct BB as (t & -> & _ & _).
      inversion FC; subst. exists q. rewrite cut_app by assumption. split; [reflexivity|].
      assert (Q : firstn 512 p = q). { unfold sent in AV. cbn [avail map concat] in AV. unfold terminated in AV. rewrite app_nil_r in AV. rewrite <- app_assoc in AV. cbn [app] in AV. eapply cstr_split; [exact C5|assumption|exact AV]. }
      split; auto.
Qed.

(** Success of the helper means that the password sent (or, where empty passwords are allowed and the helper could not read
    its input, the empty password) is right for the user's hash field. *)
Theorem helper_success_is_right : forall k buf plan d p ctrl user, is_cstr p -> length buf = CAP -> (length plan + 514 < fuel)%nat ->
  run_helper (RRuns k buf plan) d (Some p) ctrl user = Ok 0 ->
  exists priv h, helper_priv k user = Some priv /\ stored d priv user h /\ (right (off NONULL ctrl) (firstn 512 p) h \/ off NONULL ctrl = true /\ right true [] h).
Proof.
  intros k buf plan d p ctrl user C L FU H. unfold Unix_Model.run_helper in H. cbn [Unix_Model.run_helper] in H. unfold Unix_Model.chkpwd in H. cbv zeta in H.
  destruct (c_tty k); [discriminate|]. destruct (helper_priv k user) as [priv|]; [|discriminate].
  destruct (read_pass_sent buf plan p C L FU) as (w & RP & WW & _).
  set (nullok := off NONULL ctrl) in *.
  assert (H' : bind (bind (helper_verify (c_mem k) priv d user w nullok) (fun rv =>
          Ok (if rv =? 0 then (if negb (c_root k) && negb (c_audit k) then 7 else 0) else if rv =? 10 then 9 else 7, @None Z))) (fun '(rv, _) => Ok rv) = Ok 0).
  { destruct nullok.
    - change (streq (lit "nullok") (lit "chkexpiry")) with false in H. change (streq (lit "nullok") (lit "nullok")) with true in H. cbv iota in H. rewrite RP in H. exact H.
    - change (streq (lit "nonull") (lit "chkexpiry")) with false in H. change (streq (lit "nonull") (lit "nullok")) with false in H. change (streq (lit "nonull") (lit "nonull")) with true in H. cbv iota in H. rewrite RP in H. exact H. }
  clear H. unfold Unix_Model.helper_verify in H'. destruct (hash_of (c_mem k) (account_info_helper priv d user)) as [[rv0 pw] hash] eqn:EH. destruct pw as [pw|]; [|discriminate]. destruct hash as [h|]; [|discriminate].
  destruct (verify_hash (c_mem k) (Some w) h nullok) as [rv| |] eqn:EV; cbn [bind] in H'; try discriminate. destruct (Z.eqb_spec rv 0) as [->|N].
  2:{ destruct (rv =? 10); discriminate. }
  exists priv, h. split; [reflexivity|]. split; [eapply helper_hash; exact EH|]. destruct (accepted_is_right _ _ _ _ EV) as (w' & Q & R). injection Q as <-. destruct WW as [-> | ->]; [left; exact R|].
  right. destruct nullok; [auto|]. exfalso. eapply empty_accepted_only_with_nullok. exact EV.
Qed.
(** And a right password is confirmed by a helper that may read the hash and whose system calls work. *)
Theorem helper_confirms_right : forall k buf plan d p ctrl user priv h, is_cstr p -> length buf = CAP -> (length plan + 514 < fuel)%nat -> ~ In KFail plan -> ~ In KZero plan ->
  c_tty k = false -> c_mem k = true -> c_root k = true \/ c_audit k = true -> helper_priv k user = Some priv -> stored d priv user h -> right (off NONULL ctrl) (firstn 512 p) h ->
  run_helper (RRuns k buf plan) d (Some p) ctrl user = Ok 0.
Proof.
  intros k buf plan d p ctrl user priv h C L FU K1 K2 T M AU HP ST R. cbn [Unix_Model.run_helper]. unfold Unix_Model.chkpwd. cbv zeta. rewrite T, HP. destruct (read_pass_sent buf plan p C L FU) as (w & RP & _ & WW). rewrite (WW K1 K2) in RP.
  destruct (helper_hash_conv _ _ _ _ ST) as (pw & EH).
  assert (V : helper_verify (c_mem k) priv d user (firstn 512 p) (off NONULL ctrl) = Ok 0) by (unfold Unix_Model.helper_verify; rewrite M, EH; apply right_is_accepted; exact R).
  assert (AA : negb (c_root k) && negb (c_audit k) = false) by (destruct AU as [-> | ->]; [|rewrite andb_false_r]; reflexivity).
  destruct (off NONULL ctrl).
  - change (streq (lit "nullok") (lit "chkexpiry")) with false. change (streq (lit "nullok") (lit "nullok")) with true. cbv iota. rewrite RP. cbn [bind]. rewrite V. cbn [bind Z.eqb]. rewrite AA. reflexivity.
  - change (streq (lit "nonull") (lit "chkexpiry")) with false. change (streq (lit "nonull") (lit "nullok")) with false. change (streq (lit "nonull") (lit "nonull")) with true. cbv iota. rewrite RP. cbn [bind]. rewrite V. cbn [bind Z.eqb]. rewrite AA. reflexivity.
Qed.

(** C48.  Run by an ordinary user for someone else, unix_chkpwd uses nothing that user could not read: its answer does not
    depend on the shadow file. *)
Theorem chkpwd_hides_shadow : forall k now argv buf s d d', c_root k = false -> (forall user rest, argv = user :: rest -> c_own k <> Some user) ->
  (forall n, getpw d n = getpw d' n) -> (forall n, getsp d false n = getsp d' false n) ->
  chkpwd fuel k d now argv buf s = chkpwd fuel k d' now argv buf s.
Proof.
  intros k now argv buf s d d' R NO GP GS. unfold Unix_Model.chkpwd. destruct argv as [|user [|option [|]]]; try reflexivity. destruct (c_tty k); [reflexivity|].
  assert (HP : helper_priv k user = Some false \/ helper_priv k user = None).
  { unfold helper_priv. rewrite R. destruct (c_own k) as [n|] eqn:EO; [|destruct (c_drop k); auto]. destruct (streq n user) eqn:ES; [|destruct (c_drop k); auto]. apply streq_eq in ES. subst n. destruct (NO user _ eq_refl eq_refl). }
  assert (A : account_info_helper false d user = account_info_helper false d' user) by (unfold account_info_helper; rewrite GP, GS; reflexivity).
  destruct HP as [-> | ->]; [|reflexivity]. unfold check_expiry, Unix_Model.helper_verify. rewrite A. reflexivity.
Qed.
(** Run for the user themself it depends on nobody else's entries. *)
Theorem chkpwd_reads_one_user : forall k now user rest buf s d d',
  getpw d user = getpw d' user -> (forall b, getsp d b user = getsp d' b user) ->
  chkpwd fuel k d now (user :: rest) buf s = chkpwd fuel k d' now (user :: rest) buf s.
Proof.
  intros k now user rest buf s d d' GP GS. unfold Unix_Model.chkpwd. destruct rest as [|option [|]]; try reflexivity. destruct (c_tty k); [reflexivity|]. destruct (helper_priv k user) as [priv|]; [|reflexivity].
  assert (A : account_info_helper priv d user = account_info_helper priv d' user) by (unfold account_info_helper; rewrite GP, GS; reflexivity).
  unfold check_expiry, Unix_Model.helper_verify. rewrite A. reflexivity.
Qed.
End Helper.
End Pw.

(** ** Examples *)
(** A toy hash: the salt and the first eight characters of the password, filled up with dots. *)
Definition toy (k s : cstr) : option cstr := Some (firstn 2 s ++ firstn 11 (firstn 8 k ++ repeat "."%char 11))%list.
Definition toy_md5 (k s : cstr) : option cstr := Some (lit "$1$" ++ k)%list.
Definition toy_old (k s : cstr) : option cstr := Some (lit "$1$" ++ rev k)%list.
Example toy_two : forall k s t, (2 <= length s)%nat -> toy k s = Some t -> (2 <= length t)%nat.
Proof. intros k s t L E. unfold toy in E. assert (Q : t = (firstn 2 s ++ firstn 11 (firstn 8 k ++ repeat "."%char 11))%list) by congruence. rewrite Q, app_length, firstn_length. lia. Qed.
(** crypt may also be such that every result has two characters. *)
Example two_always : forall k s t, (fun k s : cstr => Some ("*"%char :: "0"%char :: k)) k s = Some t -> (2 <= length t)%nat.
Proof. intros k s t E. injection E as <-. cbn. lia. Qed.
Example verified :
  verify_hash toy toy_md5 toy_old true (Some (lit "secret")) (lit "absecret.....") false = Ok 0 /\
  verify_hash toy toy_md5 toy_old true (Some (lit "secret")) (lit "absecret.....,M.z7") false = Ok 0 /\
  verify_hash toy toy_md5 toy_old true (Some (lit "secretly long")) (lit "absecretly...") false = Ok 0 /\
  verify_hash toy toy_md5 toy_old true (Some (lit "secretlylonger")) (lit "absecretly...longer.....") false = Ok 0 /\
  verify_hash toy toy_md5 toy_old true (Some (lit "secretlylonges")) (lit "absecretly...longer.....") false = Ok 7 /\
  verify_hash toy toy_md5 toy_old true (Some (lit "secret")) (lit "$1$secret") false = Ok 0 /\
  verify_hash toy toy_md5 toy_old true (Some (lit "terces")) (lit "$1$secret") false = Ok 0 /\
  verify_hash toy toy_md5 toy_old true (Some []) [] true = Ok 0 /\ verify_hash toy toy_md5 toy_old true (Some []) [] false = Ok 7 /\
  verify_hash toy toy_md5 toy_old true (Some (lit "x")) [] true = Ok 7 /\ verify_hash toy toy_md5 toy_old true (Some (lit "secret")) (lit "!absecret.....") false = Ok 7 /\
  verify_hash toy toy_md5 toy_old true None [] true = Ok 7.
Proof. do 11 (split; [vm_compute; reflexivity|]). vm_compute. reflexivity. Qed.
Example right_toy : right toy toy_md5 toy_old false (lit "secret") (lit "absecret.....").
Proof.
  apply (RightHash _ _ _ _ _ _ (lit "absecret.....")); try (vm_compute; congruence).
  - apply EffShort. vm_compute. lia.
  - left. discriminate.
  - exact (GivesBig toy toy_md5 toy_old (lit "secret") (lit "absecret.....") (lit "absecret.....") ltac:(vm_compute; congruence) ltac:(vm_compute; lia) eq_refl).
Qed.

Definition shadowed (h : string) : spent := mkSp (Some (lit h)) 19000 0 99999 7 (-1) (-1).
Definition ann_db (h : string) : db := mkDb (fun n => if streq n (lit "ann") then Some (mkPw (lit "ann") (lit "x")) else None)
  (fun priv n => if priv && streq n (lit "ann") then Some (shadowed h) else None).
Definition for_ann (own : string) : chk := mkChk false false (Some (lit own)) true true true.
Definition dirt : list ascii := repeat "z"%char CAP.
(** ann may ask about ann, bob may not; the order does not depend on how the pipe is read. *)
Example asked_by_ann : run_helper toy toy_md5 toy_old 600 (RRuns (for_ann "ann") dirt [KTake 2; KIntr; KTake 1]) (ann_db "absecret.....") (Some (lit "secret")) 0%N (lit "ann") = Ok 0 /\
  run_helper toy toy_md5 toy_old 600 (RRuns (for_ann "bob") dirt []) (ann_db "absecret.....") (Some (lit "secret")) 0%N (lit "ann") = Ok 9 /\
  is_cstr (lit "secret") /\ length dirt = CAP /\ helper_priv (for_ann "ann") (lit "ann") = Some true /\ stored (ann_db "absecret.....") true (lit "ann") (lit "absecret.....").
Proof.
  split; [vm_compute; reflexivity|]. split; [vm_compute; reflexivity|]. split; [vm_compute; intuition discriminate|]. split; [apply repeat_length|]. split; [reflexivity|].
  eexists. split; [reflexivity|]. exists (shadowed "absecret....."). split; reflexivity.
Qed.
(** Two databases that bob cannot tell apart. *)
Example bob_learns_nothing : c_root (for_ann "bob") = false /\ (forall user rest, [lit "ann"; lit "nonull"] = user :: rest -> c_own (for_ann "bob") <> Some user) /\
  (forall n, getpw (ann_db "absecret.....") n = getpw (ann_db "!") n) /\ (forall n, getsp (ann_db "absecret.....") false n = getsp (ann_db "!") false n) /\
  getsp (ann_db "absecret.....") true (lit "ann") <> getsp (ann_db "!") true (lit "ann").
Proof. split; [reflexivity|]. split; [intros u r E; injection E as <- _; discriminate|]. split; [reflexivity|]. split; [reflexivity|]. vm_compute. congruence. Qed.

Print Assumptions accepted_is_right.
Print Assumptions right_is_accepted.
Print Assumptions locked_never_accepted.
Print Assumptions empty_accepted_only_with_nullok.
Print Assumptions empty_hash_needs_empty_password.
Print Assumptions bigcrypt_in_bounds.
Print Assumptions verify_defined.
Print Assumptions des_reads_eight.
Print Assumptions bigcrypt_traditional.
Print Assumptions helper_success_is_right.
Print Assumptions helper_confirms_right.
Print Assumptions chkpwd_hides_shadow.
Print Assumptions chkpwd_reads_one_user.
