(** Theorems about pam_access: C52 (which rule decides) and C53 (what the words of a rule mean). *)
From Coq Require Import String Ascii List Arith ZArith NArith Bool Lia Sorting.Sorted Permutation.
From Verif Require Import Base Num_Model Str_Model Str_Facts Access_Model Access_Spec.
Import ListNotations.
Local Open Scope Z_scope.

Local Ltac assoc := repeat (progress (repeat rewrite <- app_assoc; cbn [app])).

(** ** Lists with EXCEPT *)
Lemma except_iff : forall w, caseeq w (lit "EXCEPT") = true <-> is_except w.
Proof. intro w. rewrite caseeq_iff. unfold is_except, same_word. vm_compute (map tolower (lit "EXCEPT")). vm_compute (map tolower (lit "except")). reflexivity. Qed.

Lemma except_dec : forall w, is_except w \/ ~ is_except w.
Proof. intro w. destruct (caseeq w (lit "EXCEPT")) eqn:E; [left; apply except_iff; exact E|right; intro H; apply except_iff in H; congruence]. Qed.

Lemma listed_total : forall m ws, exists b, listed m ws b.
Proof.
  intros m ws. induction ws as [|w ws (b & IH)].
  - exists (existsb m []). apply (listed_plain m []). constructor.
  - destruct (except_dec w) as [E|N].
    + exists (existsb m [] && negb b). apply (listed_except m [] w ws b); auto.
    + inversion IH as [l F|l e r b' F E R]; subst.
      * exists (existsb m (w :: ws)). apply listed_plain. constructor; assumption.
      * exists (existsb m (w :: l) && negb b'). apply (listed_except m (w :: l) e r b'); auto.
Qed.

Lemma listed_fun : forall m ws a b, listed m ws a -> listed m ws b -> a = b.
Proof.
  intros m ws a b H. revert b. induction H as [l F|l e r a F E R IH]; intros b H.
  - inversion H as [l' F'|l' e r b' F' E R]; subst; [reflexivity|]. exfalso. rewrite Forall_forall in F. apply (F e); [|exact E]. apply in_or_app. right. left. reflexivity.
  - inversion H as [l' F'|l' e' r' b' F' E' R' Eq]; subst.
    + exfalso. rewrite Forall_forall in F'. apply (F' e); [|exact E]. apply in_or_app. right. left. reflexivity.
    + assert (X : l' = l /\ e' = e /\ r' = r).
      { clear - F F' E E' Eq. revert l' F' Eq. induction l as [|x l IH]; intros [|y l'] F' Eq; cbn [app] in Eq; injection Eq as H1 H2.
        - auto.
        - subst. inversion F'; contradiction.
        - subst. inversion F; contradiction.
        - subst. inversion F; inversion F'; subst. destruct (IH ltac:(assumption) l' ltac:(assumption) H2) as (-> & -> & ->). auto. }
      destruct X as (-> & -> & ->). f_equal. f_equal. apply IH. exact R'.
Qed.

Section Lists.
Variable fn : cstr -> cache -> res (bool * cache).
Variable m : cstr -> bool.
Variable I : cache -> Prop.
Hypothesis fn_m : forall w c, I c -> exists c', fn w c = Ok (m w, c') /\ I c'.

Lemma list_loop_plain : forall l rest inc matched result c, Forall (fun w => ~ is_except w) l -> I c ->
  exists c', list_loop fn (l ++ rest) inc matched result c =
    list_loop fn rest inc (matched || existsb m l) (if existsb m l then inc else result) c' /\ I c'.
Proof.
  induction l as [|w l IH]; intros rest inc matched result c F H; cbn [app existsb].
  - rewrite orb_false_r. eauto.
  - inversion F as [|? ? N F']; subst. cbn [list_loop].
    destruct (caseeq w (lit "EXCEPT")) eqn:E; [apply except_iff in E; contradiction|].
    destruct (fn_m w c H) as (c1 & -> & H1). cbn [bind]. destruct (m w).
    + destruct (IH rest inc true inc c1 F' H1) as (c2 & -> & H2). exists c2. split; [|exact H2]. cbn [orb]. rewrite orb_true_r. destruct (existsb m l); reflexivity.
    + destruct (IH rest inc matched result c1 F' H1) as (c2 & -> & H2). exists c2. split; [|exact H2]. reflexivity.
Qed.

(** With [result] what it is before the first list matches: after a matching list [result] is [inclusion]. *)
Lemma list_loop_meaning : forall ws b, listed m ws b -> forall inc c, I c ->
  exists c', list_loop fn ws inc false (negb inc) c = Ok (if b then inc else negb inc, c') /\ I c'.
Proof.
  intros ws b H. induction H as [l F|l e r b F E R IH]; intros inc c HI.
  - destruct (list_loop_plain l [] inc false (negb inc) c F HI) as (c' & Eq & HI'). rewrite app_nil_r in Eq. rewrite Eq. cbn [list_loop]. eauto.
  - destruct (list_loop_plain l (e :: r) inc false (negb inc) c F HI) as (c' & -> & HI'). cbn [list_loop].
    rewrite (proj2 (except_iff e) E). cbn [orb]. destruct (existsb m l); cbn [negb andb].
    + destruct (IH (negb inc) c' HI') as (c2 & Eq & HI2). rewrite negb_involutive in Eq. rewrite Eq. exists c2. split; [|exact HI2]. destruct b; reflexivity.
    + eauto.
Qed.

Lemma list_match_meaning : forall sep f b, field_matches sep m f b -> forall c, I c ->
  exists c', list_match sep fn f c = Ok (b, c') /\ I c'.
Proof.
  intros sep f b (ws & W & L) c H. unfold list_match. rewrite (words_strtoks _ _ _ W).
  destruct (list_loop_meaning ws b L true c H) as (c' & E & H'). cbn [negb] in E. rewrite E. exists c'. split; [|exact H']. destruct b; reflexivity.
Qed.
End Lists.

Lemma field_total : forall sep m f, exists b, field_matches sep m f b.
Proof. intros sep m f. destruct (listed_total m (strtoks sep f)) as (b & L). exists b, (strtoks sep f). split; [apply strtoks_words|exact L]. Qed.

(** ** Lines *)
Lemma hd_app : forall (a b : cstr), a <> [] -> hd NUL (a ++ b) = hd NUL a.
Proof. intros [|c a] b N; [congruence|reflexivity]. Qed.

Lemma removelast_nl : forall b : cstr, removelast (b ++ [c_nl]) = b.
Proof. intro b. rewrite removelast_last. reflexivity. Qed.

Lemma fields_of_rule : forall fs l g u f, whole_line l -> is_rule fs l g u f -> exists p, line_fields fs l = Some (p, u, f).
Proof.
  intros fs l g u f (b0 & Wl & Nb) (pre & perm & x & mid & y & blanks & -> & Pre & Pn & Pno & X & Mid & Un & Uno & Y & On & Os & Bl & NN & Hh & Hp & ->).
  exists perm. unfold line_fields. cbv zeta. rewrite cut_id by exact NN.
  set (body := pre ++ perm ++ x :: mid ++ u ++ y :: f).
  assert (EL : (pre ++ perm ++ x :: mid ++ u ++ y :: f ++ blanks ++ [c_nl] = (body ++ blanks) ++ [c_nl])%list).
  { unfold body. assoc. reflexivity. }
  assert (BN : body <> []). { unfold body. intro E. apply app_eq_nil in E. destruct E as [_ E]. apply app_eq_nil in E. destruct E as [E _]. congruence. }
  rewrite EL in *. assert (LN : exists c0 l0, ((body ++ blanks) ++ [c_nl])%list = c0 :: l0 /\ c0 <> c_hash).
  { destruct body as [|c0 l0]; [congruence|]. exists c0, ((l0 ++ blanks) ++ [c_nl])%list. split; [reflexivity|]. exact Hh. }
  destruct LN as (c0 & l0 & LE & C0). rewrite LE. rewrite <- LE. unfold last_char. rewrite last_last, Ascii.eqb_refl. cbn [negb].
  destruct (Ascii.eqb c0 c_hash) eqn:EH; [apply Ascii.eqb_eq in EH; contradiction|].
  rewrite removelast_nl. rewrite rtrim_app; [|exact Bl|].
  2:{ right. clear - Os On. unfold body. destruct f as [|z f] using rev_ind; [congruence|]. rewrite last_last in Os.
      replace (pre ++ perm ++ x :: mid ++ u ++ y :: f ++ [z])%list with ((pre ++ perm ++ x :: mid ++ u ++ y :: f) ++ [z])%list by (assoc; reflexivity).
      rewrite last_last. exact Os. }
  destruct body as [|bc bt] eqn:EB; [congruence|]. rewrite <- EB in *. unfold body in *.
  rewrite strtok_more by assumption. rewrite strtok_more by assumption.
  assert (NF : no_sep [c_nl] f).
  { intros c Ic Inl. destruct Inl as [<-|[]]. apply app_inj_tail in Wl. destruct Wl as [<- _]. apply Nb. unfold body. apply in_or_app. left.
    apply in_or_app. right. apply in_or_app. right. right. apply in_or_app. right. apply in_or_app. right. right. exact Ic. }
  pose proof (strtok_last [c_nl] [] f (fun c H => match H with end) On NF) as SL. cbn [app] in SL. rewrite SL.
  destruct Hp as [-> | ->]; rewrite Ascii.eqb_refl; rewrite ?orb_true_r; reflexivity.
Qed.

Lemma rule_of_fields : forall fs l p u f, whole_line l -> line_fields fs l = Some (p, u, f) ->
  is_rule fs l (Ascii.eqb (hd NUL l) "+"%char) u f.
Proof.
  intros fs l p u f (b0 & -> & Nb) H. unfold line_fields in H. cbv zeta in H.
  destruct (cut_prefix (b0 ++ [c_nl])) as (r & EC & R).
  assert (NN : ~ In NUL (cut (b0 ++ [c_nl]))) by apply cut_no_nul.
  remember (cut (b0 ++ [c_nl])) as s eqn:Hs. clear Hs. destruct s as [|c0 s0] eqn:Es; [discriminate|]. rewrite <- Es in *.
  destruct (Ascii.eqb (last_char s) c_nl) eqn:EL; [|discriminate]. cbn [negb] in H. apply Ascii.eqb_eq in EL. unfold last_char in EL.
  assert (S1 : s = b0 ++ [c_nl]).
  { destruct r as [|z r]; [rewrite app_nil_r in EC; auto|]. exfalso. destruct s as [|c s] using rev_ind; [discriminate|]. rewrite last_last in EL. subst c. clear IHs.
    destruct (@exists_last _ (z :: r)%list) as (t & a & Et); [discriminate|]. rewrite Et in EC.
    rewrite !app_assoc in EC. apply app_inj_tail in EC. destruct EC as [EC _]. apply Nb. rewrite EC. apply in_or_app. left. apply in_or_app. right. left. reflexivity. }
  rewrite S1 in *. rewrite removelast_nl in H.
  destruct (Ascii.eqb c0 c_hash) eqn:EH; [discriminate|].
  destruct (rtrim_spec b0) as (tr & ET & T & TN).
  remember (rtrim b0) as b eqn:Hb. clear Hb. destruct b as [|bc bt] eqn:EB; [discriminate|]. rewrite <- EB in *.
  destruct TN as [TN|TN]; [subst b; discriminate|].
  destruct (strtok fs b) as [[perm r1]|] eqn:E1; [|discriminate].
  destruct (strtok fs r1) as [[us r2]|] eqn:E2; [|discriminate].
  destruct (strtok [c_nl] r2) as [[fr r3]|] eqn:E3; [|discriminate].
  destruct (Ascii.eqb (hd NUL perm) "+"%char || Ascii.eqb (hd NUL perm) "-"%char) eqn:EP; [|discriminate].
  injection H as <- <- <-.
  apply strtok_some in E1. destruct E1 as (pre & Pre & Pn & Pno & [(_ & ->)|(x & X & EB1)]); [discriminate|].
  apply strtok_some in E2. destruct E2 as (mid & Mid & Un & Uno & [(_ & ->)|(y & Y & EB2)]); [discriminate|].
  assert (N2 : ~ In c_nl r2).
  { intro I2. apply Nb. rewrite ET, EB1, EB2. apply in_or_app. left. apply in_or_app. right. apply in_or_app. right. right. apply in_or_app. right. apply in_or_app. right. right. exact I2. }
  apply strtok_some in E3. destruct E3 as (q & Q & Fn & Fno & EF).
  assert (Eqq : q = []). { destruct q as [|z q]; [reflexivity|]. exfalso. assert (z = c_nl) by (destruct (Q z (or_introl eq_refl)) as [<-|[]]; reflexivity). subst z. apply N2. destruct EF as [(-> & _)|(w & _ & ->)]; left; reflexivity. }
  subst q. destruct EF as [(EF & _)|(w & Ww & EF)].
  2:{ exfalso. destruct Ww as [<-|[]]. apply N2. rewrite EF. cbn [app]. apply in_or_app. right. left. reflexivity. }
  cbn [app] in EF. subst r2 r1.
  exists pre, perm, x, mid, y, tr.
  assert (EL' : (b0 ++ [c_nl] = pre ++ perm ++ x :: mid ++ us ++ y :: fr ++ tr ++ [c_nl])%list).
  { rewrite ET, EB1. assoc. reflexivity. }
  split; [exact EL'|]. do 9 (split; [assumption|]).
  split. { rewrite EB1 in TN. destruct fr as [|z fr] using rev_ind; [congruence|]. rewrite last_last.
    replace (pre ++ perm ++ x :: mid ++ us ++ y :: fr ++ [z])%list with ((pre ++ perm ++ x :: mid ++ us ++ y :: fr) ++ [z])%list in TN.
    - rewrite last_last in TN. exact TN.
    - assoc. reflexivity. }
  split; [exact T|]. split; [exact NN|].
  split. { rewrite Es. cbn [hd]. intro E. subst c0. rewrite Ascii.eqb_refl in EH. discriminate. }
  split; [|reflexivity].
  apply orb_true_iff in EP. destruct EP as [EP|EP]; apply Ascii.eqb_eq in EP; auto.
Qed.

Lemma no_fields_of_tail : forall fs t, ~ In c_nl t -> line_fields fs t = None.
Proof.
  intros fs t N. unfold line_fields. destruct (cut_prefix t) as (r & E & _).
  assert (NC : ~ In c_nl (cut t)) by (intro H; apply N; rewrite E; apply in_or_app; auto).
  destruct (cut t) as [|c0 s0] eqn:Es; [reflexivity|]. rewrite <- Es in *.
  destruct (Ascii.eqb (last_char (cut t)) c_nl) eqn:EL; [|reflexivity].
  exfalso. apply Ascii.eqb_eq in EL. apply NC. unfold last_char in EL. rewrite <- EL. clear - Es.
  assert (X : cut t <> []) by (rewrite Es; discriminate). destruct (cut t) as [|c s] using rev_ind; [congruence|]. rewrite last_last. apply in_or_app. right. left. reflexivity.
Qed.

(** ** The rules of a table *)
Lemma rule_unique : forall fs l g u f g' u' f', whole_line l -> is_rule fs l g u f -> is_rule fs l g' u' f' -> g = g' /\ u = u' /\ f = f'.
Proof.
  intros fs l g u f g' u' f' W R R'.
  destruct (fields_of_rule _ _ _ _ _ W R) as (p & E). destruct (fields_of_rule _ _ _ _ _ W R') as (p' & E').
  rewrite E in E'. injection E' as _ -> ->.
  destruct R as (? & ? & ? & ? & ? & ? & R), R' as (? & ? & ? & ? & ? & ? & R').
  repeat match goal with H : _ /\ _ |- _ => destruct H end. subst. auto.
Qed.

Lemma field_unique : forall sep m f a b, field_matches sep m f a -> field_matches sep m f b -> a = b.
Proof.
  intros sep m f a b (ws & W & L) (ws' & W' & L'). apply words_strtoks in W, W'. subst. eapply listed_fun; eassumption.
Qed.

(** C52: a table decides in one way only. *)
Theorem decision_unique : forall fs sep mu mf ls v v', Forall whole_line ls -> decides fs sep mu mf ls v -> decides fs sep mu mf ls v' -> v = v'.
Proof.
  intros fs sep mu mf ls v v' F H. revert v' F.
  induction H as [|l ls g u f R U O|l ls g u f v R U H IH|l ls g u f v R U O H IH|l ls v N H IH]; intros v' F H'; inversion F as [|? ? W F']; subst.
  - inversion H'. reflexivity.
  - inversion H' as [|? ? g' u' f' R' U' O'|? ? g' u' f' ? R' U' H2|? ? g' u' f' ? R' U' O' H2|? ? ? N' H2]; subst;
      try (destruct (rule_unique _ _ _ _ _ _ _ _ W R R') as (<- & <- & <-)); auto.
    + pose proof (field_unique _ _ _ _ _ U U'). discriminate.
    + pose proof (field_unique _ _ _ _ _ O O'). discriminate.
    + exfalso. eapply N', R.
  - inversion H' as [|? ? g' u' f' R' U' O'|? ? g' u' f' ? R' U' H2|? ? g' u' f' ? R' U' O' H2|? ? ? N' H2]; subst;
      try (destruct (rule_unique _ _ _ _ _ _ _ _ W R R') as (<- & <- & <-)); auto.
    + pose proof (field_unique _ _ _ _ _ U U'). discriminate.
  - inversion H' as [|? ? g' u' f' R' U' O'|? ? g' u' f' ? R' U' H2|? ? g' u' f' ? R' U' O' H2|? ? ? N' H2]; subst;
      try (destruct (rule_unique _ _ _ _ _ _ _ _ W R R') as (<- & <- & <-)); auto.
    + pose proof (field_unique _ _ _ _ _ O O'). discriminate.
  - inversion H' as [|? ? g' u' f' R' U' O'|? ? g' u' f' ? R' U' H2|? ? g' u' f' ? R' U' O' H2|? ? ? N' H2]; subst; auto; exfalso; eapply N; eassumption.
Qed.

Section Rules.
Variables fs sep : cstr.
Variables nodns new_groups : bool.
Variable user : cstr.
Variable uid : Z.
Variable in_group : cstr -> bool.
Variable in_gid : Z -> bool.
Variable innetgr : cstr -> option cstr -> option cstr -> bool.
Variable hostname : option cstr.
Variable pton : fam -> cstr -> option (list Z).
Variable ntop : fam -> list Z -> cstr.
Variable gai : hint -> cstr -> option (list addr).
Variable numeric : addr -> option cstr.
Variable device : cstr -> bool.

Notation um := (user_match nodns new_groups user uid in_group in_gid innetgr hostname pton ntop gai numeric device).
Notation fm := (from_match nodns innetgr pton ntop gai numeric device).
Notation login := (login_access fs sep nodns new_groups user uid in_group in_gid innetgr hostname pton ntop gai numeric device).
Notation files := (access_files fs sep nodns new_groups user uid in_group in_gid innetgr hostname pton ntop gai numeric device).

Section Given.
Variable it : item.
Variables mu mf : cstr -> bool.
Variable I : cache -> Prop.
Hypothesis users_m : forall w, um w = Ok (mu w).
Hypothesis from_m : forall w c, I c -> exists c', fm w it c = Ok (mf w, c') /\ I c'.

Lemma lines_decide : forall ls c, Forall whole_line ls -> I c ->
  exists v c', access_lines fs sep nodns new_groups user uid in_group in_gid innetgr hostname pton ntop gai numeric device it ls c = Ok (v, c') /\
    decides fs sep mu mf ls v /\ I c'.
Proof.
  induction ls as [|l ls IH]; intros c F H; cbn [access_lines].
  - exists None, c. repeat split; [constructor|exact H].
  - inversion F as [|? ? W F']; subst. destruct (line_fields fs l) as [[[p u] f]|] eqn:E.
    + pose proof (rule_of_fields _ _ _ _ _ W E) as R. unfold line_match.
      destruct (field_total sep mu u) as (bu & U).
      assert (UM : forall w c0, I c0 -> exists c1, (fun tok c2 => bind (um tok) (fun b => Ok (b, c2))) w c0 = Ok (mu w, c1) /\ I c1).
      { intros w c0 H0. rewrite users_m. cbn [bind]. eauto. }
      destruct (list_match_meaning _ mu I UM sep u bu U c H) as (c1 & -> & H1). cbn [bind].
      destruct bu; cbn [bind].
      * destruct (field_total sep mf f) as (bf & O).
        destruct (list_match_meaning (fun tok c => fm tok it c) mf I from_m sep f bf O c1 H1) as (c2 & -> & H2). cbn [bind].
        destruct bf.
        -- eexists _, c2. split; [reflexivity|]. split; [|exact H2]. eapply decides_rule; eassumption.
        -- destruct (IH c2 F' H2) as (v & c3 & E3 & D & H3). exists v, c3. split; [exact E3|]. split; [|exact H3]. eapply decides_origin; eassumption.
      * destruct (IH c1 F' H1) as (v & c3 & E3 & D & H3). exists v, c3. split; [exact E3|]. split; [|exact H3]. eapply decides_user; eassumption.
    + destruct (IH c F' H) as (v & c3 & E3 & D & H3). exists v, c3. split; [exact E3|]. split; [|exact H3]. apply decides_skip; [|exact D].
      intros g u f R. destruct (fields_of_rule _ _ _ _ _ W R) as (p & E'). congruence.
Qed.

Lemma lines_tail : forall ls t c, ~ In c_nl t ->
  access_lines fs sep nodns new_groups user uid in_group in_gid innetgr hostname pton ntop gai numeric device it (ls ++ match t with [] => [] | _ => [t] end) c =
  access_lines fs sep nodns new_groups user uid in_group in_gid innetgr hostname pton ntop gai numeric device it ls c.
Proof.
  intros ls t c N. destruct t as [|x t]; [rewrite app_nil_r; reflexivity|]. revert c. induction ls as [|l ls IH]; intro c; cbn [app access_lines].
  - rewrite no_fields_of_tail by exact N. reflexivity.
  - destruct (line_fields fs l) as [[[p u] f]|]; [|apply IH].
    destruct (line_match _ _ _ _ _ _ _ _ _ _ _ _ _ _ it u f c) as [[[|] c1]| |]; cbn [bind]; auto.
Qed.

Lemma table_decides : forall ls t c, Forall whole_line ls -> ~ In c_nl t -> I c ->
  exists v c', login it (Contents (concat ls ++ t)) c = Ok (v, c') /\ decides fs sep mu mf ls v /\ I c'.
Proof.
  intros ls t c F N H. cbn [login_access]. rewrite lines_of_whole by assumption. rewrite lines_tail by exact N. apply lines_decide; assumption.
Qed.
End Given.

(** ** The resolver *)
(** getnameinfo(3) does not fail. *)
Hypothesis names : forall a, numeric a <> None.

Lemma numeric_equal_ok : forall s tl mask, exists b, numeric_equal pton numeric s tl mask = Ok b.
Proof.
  intros s tl mask. induction tl as [|a tl (b & IH)]; cbn [numeric_equal]; [eauto|].
  destruct (numeric a) eqn:E; [|exfalso; eapply names; eassumption]. destruct (addresses_equal _ _ _ _); eauto.
Qed.

(** What is kept of the resolver's answer about [s] is the answer. *)
Definition kept (s : cstr) (c : cache) : Prop :=
  match c with Unasked => True | Failed => gai HUnspec s = None | Got l => gai HUnspec s = Some l end.

Lemma lookup_kept : forall h s c, gai h s = gai HUnspec s -> kept s c ->
  exists c', lookup gai h s c = (gai HUnspec s, c') /\ kept s c'.
Proof.
  intros h s c E K. destruct c as [| |l]; cbn [lookup kept] in *.
  - rewrite E. destruct (gai HUnspec s) eqn:G; eexists; split; try reflexivity; exact G.
  - exists Failed. rewrite K. split; [reflexivity|exact K].
  - exists (Got l). rewrite K. split; [reflexivity|exact K].
Qed.

Lemma network_kept : forall w s c, kept s c ->
  exists b c', network_match nodns pton ntop gai numeric device w s c = Ok (b, c') /\ kept s c' /\
    forall c2, kept s c2 -> exists c3, network_match nodns pton ntop gai numeric device w s c2 = Ok (b, c3).
Proof.
  intros w s c K. unfold network_match. destruct (token_addresses _ _ _ _ _ _) as [[tl mask]|]; [|eauto 7].
  destruct (isipaddr pton s) eqn:P.
  - destruct (numeric_equal_ok s tl mask) as (b & ->). cbn [bind]. eauto 7.
  - destruct (lookup_kept HUnspec s c eq_refl K) as (c' & -> & K'). destruct (gai HUnspec s) as [rl|] eqn:G.
    + do 2 eexists. split; [reflexivity|]. split; [exact K'|]. intros c2 K2. destruct (lookup_kept HUnspec s c2 eq_refl K2) as (c3 & -> & _). rewrite G. eauto.
    + do 2 eexists. split; [reflexivity|]. split; [exact K'|]. intros c2 K2. destruct (lookup_kept HUnspec s c2 eq_refl K2) as (c3 & -> & _). rewrite G. eauto.
Qed.

Lemma from_kept : forall s remote w c, gai HInet s = gai HUnspec s -> kept s c ->
  exists b c', fm w (mkItem (Some s) remote) c = Ok (b, c') /\ kept s c' /\
    forall c2, kept s c2 -> exists c3, fm w (mkItem (Some s) remote) c2 = Ok (b, c3).
Proof.
  intros s remote w c E K. unfold from_match. cbn [from from_remote].
  destruct (Ascii.eqb (hd NUL w) "@"%char); [eauto 7|]. destruct (string_match w (Some s)); [eauto 7|].
  destruct (caseeq w (lit "LOCAL")); [eauto 7|]. destruct remote; [|eauto 7].
  unfold remote_match. destruct (Ascii.eqb (hd NUL w) "."%char).
  - destruct ((length w <? length s)%nat && caseeq w (skipn (length s - length w) s)); [eauto 7|]. apply network_kept. exact K.
  - destruct (Ascii.eqb (last_char w) "."%char); [|apply network_kept; exact K].
    destruct (lookup_kept HInet s c E K) as (c' & -> & K'). destruct (gai HUnspec s) as [rl|] eqn:G.
    + do 2 eexists. split; [reflexivity|]. split; [exact K'|]. intros c2 K2. destruct (lookup_kept HInet s c2 (eq_trans E (eq_sym G)) K2) as (c3 & Eq & _). rewrite Eq, G. eauto.
    + do 2 eexists. split; [reflexivity|]. split; [exact K'|]. intros c2 K2. destruct (lookup_kept HInet s c2 (eq_trans E (eq_sym G)) K2) as (c3 & Eq & _). rewrite Eq, G. eauto.
Qed.

Lemma user_ok : forall w, exists b, um w = Ok b.
Proof.
  intro w. unfold user_match. destruct (in_parens w); [eauto|]. destruct (split_user w) as [[u h]|]; [|eauto].
  destruct hostname as [hn|]; [|eauto]. destruct (negb _); [eauto|].
  assert (F : exists r, fm h (mkItem (Some hn) true) Unasked = Ok r).
  { unfold from_match. cbn [from from_remote]. destruct (Ascii.eqb _ _); [eauto|]. destruct (string_match _ _); [eauto|]. destruct (caseeq _ _); [eauto|].
    unfold remote_match. destruct (Ascii.eqb (hd NUL h) "."%char).
    - destruct (_ && _); [eauto|]. destruct (network_kept h hn Unasked Logic.I) as (b & c' & -> & _). eauto.
    - destruct (Ascii.eqb _ _).
      + destruct (lookup gai HInet hn Unasked) as [[l|] c]; eauto.
      + destruct (network_kept h hn Unasked Logic.I) as (b & c' & -> & _). eauto. }
  destruct F as (r & ->). cbn [bind]. eauto.
Qed.

(** What a word of the users field says by itself, and what a word of the origins field says by itself. *)
Definition user_word (w : cstr) : bool := match um w with Ok b => b | _ => false end.
Definition origin_word (it : item) (w : cstr) : bool := match fm w it Unasked with Ok (b, _) => b | _ => false end.

(** C52: for every table, made of whole lines and perhaps an unfinished last one, the first rule whose users and origins
    match decides; each word counts for what it says by itself; an unfinished last line does not count. Assumed: the
    resolver gives the same answer for the remote host whether asked for all addresses or for the IPv4 ones, and
    addresses can be printed. *)
Theorem first_rule_decides : forall s remote ls t c, gai HInet s = gai HUnspec s -> Forall whole_line ls -> ~ In c_nl t -> kept s c ->
  exists v c', login (mkItem (Some s) remote) (Contents (concat ls ++ t)) c = Ok (v, c') /\
    decides fs sep user_word (origin_word (mkItem (Some s) remote)) ls v /\ kept s c'.
Proof.
  intros s remote ls t c E F N K. apply table_decides; auto.
  - intro w. unfold user_word. destruct (user_ok w) as (b & ->). reflexivity.
  - intros w c0 K0. destruct (from_kept s remote w c0 E K0) as (b & c1 & E1 & K1 & _).
    destruct (from_kept s remote w c0 E K0) as (b' & c1' & E1' & _ & O). rewrite E1 in E1'. injection E1' as <- <-.
    destruct (O Unasked Logic.I) as (c3 & E3). exists c1. split; [|exact K1]. unfold origin_word. rewrite E3. exact E1.
Qed.

(** The verdict of several tables: the first that has a matching rule; a table that cannot be read denies, one that does not exist
    has no rules. *)
Inductive tables_decide (mu mf : cstr -> bool) : list opened -> option bool -> Prop :=
| tables_none : tables_decide mu mf [] None
| tables_unreadable : forall fl, tables_decide mu mf (Unreadable :: fl) (Some false)
| tables_missing : forall fl v, tables_decide mu mf fl v -> tables_decide mu mf (Missing :: fl) v
| tables_hit : forall ls t fl b, Forall whole_line ls -> ~ In c_nl t -> decides fs sep mu mf ls (Some b) ->
    tables_decide mu mf (Contents (concat ls ++ t) :: fl) (Some b)
| tables_miss : forall ls t fl v, Forall whole_line ls -> ~ In c_nl t -> decides fs sep mu mf ls None -> tables_decide mu mf fl v ->
    tables_decide mu mf (Contents (concat ls ++ t) :: fl) v.

Lemma files_decide : forall s remote fl c, gai HInet s = gai HUnspec s -> kept s c ->
  exists v c', files (mkItem (Some s) remote) fl c = Ok (v, c') /\ kept s c' /\
    tables_decide user_word (origin_word (mkItem (Some s) remote)) fl v.
Proof.
  intros s remote fl c E. revert c. induction fl as [|f fl IH]; intros c K; cbn [access_files].
  - exists None, c. repeat split; [exact K|constructor].
  - destruct f as [| |b].
    + cbn [login_access bind]. destruct (IH c K) as (v & c' & E' & K' & D). exists v, c'. split; [exact E'|]. split; [exact K'|]. constructor. exact D.
    + cbn [login_access bind]. exists (Some false), c. split; [reflexivity|]. split; [exact K|]. constructor.
    + destruct (content_lines b) as (ls & t & -> & F & N).
      destruct (first_rule_decides s remote ls t c E F N K) as (v & c' & -> & D & K'). cbn [bind].
      destruct v as [v|].
      * exists (Some v), c'. split; [reflexivity|]. split; [exact K'|]. apply tables_hit; assumption.
      * destruct (IH c' K') as (v' & c2 & E2 & K2 & D2). exists v', c2. split; [exact E2|]. split; [exact K2|]. apply tables_miss; assumption.
Qed.
End Rules.

(** ** The module *)
Lemma insert_perm : forall x l, Permutation (insert_file x l) (x :: l).
Proof.
  intros x l. induction l as [|y l IH]; cbn [insert_file]; [auto|]. destruct (str_leb _ _); [auto|].
  rewrite IH. apply perm_swap.
Qed.
Lemma sort_perm : forall l, Permutation (sort_files l) l.
Proof. induction l as [|x l IH]; cbn [sort_files]; [auto|]. rewrite insert_perm, IH. reflexivity. Qed.

Lemma str_leb_total : forall a b, str_leb a b = true \/ str_leb b a = true.
Proof.
  induction a as [|x a IH]; intros [|y b]; cbn [str_leb]; auto.
  destruct (Nat.ltb_spec (ord x) (ord y)); [auto|]. destruct (Nat.ltb_spec (ord y) (ord x)); [auto|].
  destruct (IH b); auto.
Qed.
Definition file_le (a b : cstr) : Prop := str_leb (base_name a) (base_name b) = true.
Lemma insert_sorted : forall x l, Sorted file_le l -> Sorted file_le (insert_file x l).
Proof.
  intros x l H. induction H as [|y l S IH R]; cbn [insert_file]; [auto|].
  destruct (str_leb (base_name x) (base_name y)) eqn:E; [auto|].
  constructor; [exact IH|]. destruct (str_leb_total (base_name x) (base_name y)) as [T|T]; [congruence|].
  destruct l as [|z l]; cbn [insert_file]; [constructor; exact T|].
  destruct (str_leb (base_name x) (base_name z)); constructor; [exact T|]. inversion R. assumption.
Qed.

(** C52: the tables of access.d are used in the order of their names, each once; if memory suffices, all of them. *)
Theorem directory_order : forall found room, (length found <= room)%nat ->
  Permutation (read_access_dir true (Some found) room) found /\ Sorted file_le (read_access_dir true (Some found) room).
Proof.
  intros found room L. unfold read_access_dir. rewrite firstn_all2 by exact L. split; [apply sort_perm|].
  induction found as [|x l IH]; cbn [sort_files]; [constructor|]. apply insert_sorted. apply IH. cbn [length] in L. lia.
Qed.

(** The last part of a path. *)
Theorem base_name_meaning : forall d f, ~ In c_slash f -> base_name (d ++ c_slash :: f) = f /\ base_name f = f.
Proof.
  intros d f N. assert (B : forall s best, ~ In c_slash s -> base_name_from s best = best).
  { induction s as [|c s IH]; intros best NS; cbn [base_name_from]; [reflexivity|].
    destruct (Ascii.eqb c c_slash) eqn:E; [apply Ascii.eqb_eq in E; subst; exfalso; apply NS; left; reflexivity|]. apply IH. intro H. apply NS. right. exact H. }
  split; [|apply B; exact N]. unfold base_name. generalize (d ++ c_slash :: f)%list at 2. induction d as [|c d IH]; intro best; cbn [app base_name_from].
  - rewrite Ascii.eqb_refl. apply B. exact N.
  - destruct (Ascii.eqb c c_slash); apply IH.
Qed.

(** C52: every entry point but pam_sm_setcred: the user is let in unless the first table with a matching rule denies, or a table cannot
    be read that comes before every matching rule. The tables: the file named by accessfile, or access.conf and then the files of access.d. *)
Theorem module_decides : forall y u name uid args o rhost tty stdin service s remote,
  y_pw y u = Some (name, uid) ->
  parse_args (fun p => match y_file y p with Contents _ => true | _ => false end) args default_opts = Some o ->
  origin rhost tty stdin service = Some (mkItem (Some s) remote) ->
  y_gai y HInet s = y_gai y HUnspec s -> (forall a, y_numeric y a <> None) ->
  exists v,
    tables_decide (o_fs o) (o_sep o)
      (user_word (o_nodns o) (o_new_groups o) name uid (y_in_group y) (y_in_gid y) (y_netgr y) (y_host y) (y_pton y) (y_ntop y) (y_gai y) (y_numeric y) (y_device y))
      (origin_word (o_nodns o) (y_netgr y) (y_pton y) (y_ntop y) (y_gai y) (y_numeric y) (y_device y) (mkItem (Some s) remote))
      (match o_file o with
       | Some f => [y_file y f]
       | None => y_file y ACCESS_CONF :: map (y_file y) (read_access_dir (y_mem y) (y_glob y) (y_room y))
       end) v /\
    pam_access y (Some u) args rhost tty stdin service = Ok (match v with Some false => PAM_PERM_DENIED | _ => PAM_SUCCESS end).
Proof.
  intros y u name uid args o rhost tty stdin service s remote P A O G NM.
  pose proof (files_decide (o_fs o) (o_sep o) (o_nodns o) (o_new_groups o) name uid (y_in_group y) (y_in_gid y) (y_netgr y) (y_host y) (y_pton y) (y_ntop y) (y_gai y) (y_numeric y) (y_device y) NM s remote
    (match o_file o with Some f => [y_file y f] | None => y_file y ACCESS_CONF :: map (y_file y) (read_access_dir (y_mem y) (y_glob y) (y_room y)) end) Unasked G Logic.I) as (v & c & E & _ & D).
  exists v. split; [exact D|]. clear D. unfold pam_access. rewrite P, A, O. cbv zeta.
  destruct (o_file o) as [f|]; cbn [access_files] in E;
    destruct (login_access _ _ _ _ _ _ _ _ _ _ _ _ _ _ _ (mkItem (Some s) remote) _ Unasked) as [[[v1|] c1]| |]; cbn [bind] in E |- *; try discriminate.
  - injection E as <- <-. cbn [fst]. destruct v1; reflexivity.
  - injection E as <- <-. reflexivity.
  - injection E as <- <-. cbn [fst]. destruct v1; reflexivity.
  - rewrite E. cbn [bind fst]. destruct v as [[|]|]; reflexivity.
Qed.

(** C52: the origin of a login: the remote host if there is one; else the terminal without the leading directory, else the service. *)
Theorem origin_meaning :
  (forall h tty stdin service, h <> [] -> origin (Some h) tty stdin service = Some (mkItem (Some h) true)) /\
  (forall t stdin service, origin None (Some (lit "/dev/" ++ t)) stdin service = Some (mkItem (Some t) false)) /\
  (forall t stdin service, ~ In c_slash t -> origin (Some []) (Some t) stdin service = Some (mkItem (Some t) false)) /\
  (forall v, ~ In c_slash v -> origin None None None (Some v) = Some (mkItem (Some v) false)).
Proof.
  split; [|split; [|split]].
  - intros [|c h] tty stdin service N; [congruence|reflexivity].
  - intros t stdin service. reflexivity.
  - intros t stdin service N. cbn [origin]. destruct t as [|c t]; [reflexivity|]. cbn [strip_device].
    destruct (Ascii.eqb c c_slash) eqn:E; [apply Ascii.eqb_eq in E; subst; exfalso; apply N; left; reflexivity|reflexivity].
  - intros t N. cbn [origin]. destruct t as [|c t]; [reflexivity|]. cbn [strip_device].
    destruct (Ascii.eqb c c_slash) eqn:E; [apply Ascii.eqb_eq in E; subst; exfalso; apply N; left; reflexivity|reflexivity].
Qed.

(** ** Examples *)
(** A line of text. *)
Definition txt (s : string) : list ascii := lit s ++ [c_nl].
(** Dotted decimal addresses, as examples of inet_pton and inet_ntop. *)
Fixpoint ntop_example (b : list Z) : cstr :=
  match b with [] => [] | [x] => decimal x | x :: b => decimal x ++ lit "." ++ ntop_example b end.
Definition pton_example (s : cstr) : option (list Z) :=
  let parts := strtoks (lit ".") s in
  let b := map value parts in
  if forallb (fun c => isdigit c || Ascii.eqb c "."%char) s && (length parts =? 4)%nat && forallb (fun x => x <? 256) b && streq s (ntop_example b)
  then Some b else None.
Definition pton_ex (f : fam) (s : cstr) : option (list Z) := match f with V4 => pton_example s | V6 => None end.
Definition ntop_ex (f : fam) (b : list Z) : cstr := match f with V4 => ntop_example b | V6 => lit "::" end.
Definition gai_ex (h : hint) (s : cstr) : option (list addr) :=
  match pton_example s with
  | Some b => Some [mkAddr V4 b]
  | None => if streq s (lit "host.example.org") then Some [mkAddr V4 [192; 168; 201; 7]] else None
  end.
Definition numeric_ex (a : addr) : option cstr := Some (ntop_ex (a_fam a) (a_bytes a)).
(** A system with a table and users called john and Root. *)
Definition example_sys (table : list ascii) : asys := {|
  y_pw := fun u => if streq u (lit "john") then Some (u, 1003) else if streq u (lit "Root") then Some (u, 7) else None;
  y_in_group := fun g => streq g (lit "wheel"); y_in_gid := fun g => g =? 10;
  y_netgr := fun _ _ _ => false; y_host := Some (lit "here");
  y_pton := pton_ex; y_ntop := ntop_ex; y_gai := gai_ex; y_numeric := numeric_ex; y_device := fun _ => false;
  y_file := fun p => if streq p ACCESS_CONF then Contents table else Missing; y_glob := None; y_mem := true; y_room := 10 |}.

Definition example_table : list ascii :=
  txt "# a comment" ++ txt "" ++ txt "nonsense" ++ txt "+ : john : 192.168.201.0/24 EXCEPT 192.168.201.9" ++
  txt "- : ALL EXCEPT (wheel) root : LOCAL" ++ txt "-:ALL:ALL".

Example module_decides_example :
  y_pw (example_sys example_table) (lit "john") = Some (lit "john", 1003) /\
  (forall s, y_gai (example_sys example_table) HInet s = y_gai (example_sys example_table) HUnspec s) /\
  (forall a, y_numeric (example_sys example_table) a <> None) /\
  map (fun r => pam_access (example_sys example_table) (Some (lit "john")) [] r (Some (lit "/dev/tty1")) None None)
    [Some (lit "192.168.201.4"); Some (lit "192.168.201.9"); Some (lit "host.example.org"); Some (lit "10.0.0.1"); None]
    = [Ok PAM_SUCCESS; Ok PAM_PERM_DENIED; Ok PAM_SUCCESS; Ok PAM_PERM_DENIED; Ok PAM_PERM_DENIED].
Proof.
  split; [reflexivity|]. split; [reflexivity|]. split; [intro a; discriminate|]. vm_compute. reflexivity.
Qed.

Lemma listed_plain_eq : forall m l b, existsb m l = b -> Forall (fun w => ~ is_except w) l -> listed m l b.
Proof. intros m l b <- F. apply listed_plain. exact F. Qed.
Example first_rule_decides_example :
  decides (lit ":") (lit " ") (fun w => streq w (lit "a")) (fun w => streq w (lit "b"))
    [txt "-:x:ALL"; txt "nonsense"; txt "+:a EXCEPT c:c b"] (Some true) /\
  Forall whole_line [txt "-:x:ALL"; txt "nonsense"; txt "+:a EXCEPT c:c b"].
Proof.
  assert (W : Forall whole_line [txt "-:x:ALL"; txt "nonsense"; txt "+:a EXCEPT c:c b"]).
  { repeat constructor; eexists; (split; [reflexivity|]); vm_compute; intros H; repeat (destruct H as [H|H]; [discriminate|]); destruct H. }
  split; [|exact W]. inversion W as [|? ? W1 W']; subst. inversion W' as [|? ? W2 W'']; subst. inversion W'' as [|? ? W3 _]; subst.
  eapply decides_user.
  - apply (rule_of_fields (lit ":") _ (lit "-") (lit "x") (lit "ALL") W1). reflexivity.
  - exists (strtoks (lit " ") (lit "x")). split; [apply strtoks_words|]. change (strtoks (lit " ") (lit "x")) with [lit "x"].
    apply (listed_plain_eq _ [lit "x"]); [reflexivity|]. constructor; [|constructor]. unfold is_except, same_word. vm_compute. discriminate.
  - apply decides_skip.
    + intros g u f R. destruct (fields_of_rule _ _ _ _ _ W2 R) as (p & E). vm_compute in E. discriminate.
    + change (Some true) with (Some (Ascii.eqb (hd NUL (txt "+:a EXCEPT c:c b")) "+"%char)).
      eapply decides_rule.
      * apply (rule_of_fields (lit ":") _ (lit "+") (lit "a EXCEPT c") (lit "c b") W3). reflexivity.
      * exists (strtoks (lit " ") (lit "a EXCEPT c")). split; [apply strtoks_words|]. change (strtoks (lit " ") (lit "a EXCEPT c")) with [lit "a"; lit "EXCEPT"; lit "c"].
        apply (listed_except (fun w => streq w (lit "a")) [lit "a"] (lit "EXCEPT") [lit "c"] false); [constructor; [|constructor]; unfold is_except, same_word; vm_compute; discriminate|reflexivity|].
        apply (listed_plain_eq _ [lit "c"]); [reflexivity|]. constructor; [|constructor]. unfold is_except, same_word. vm_compute. discriminate.
      * exists (strtoks (lit " ") (lit "c b")). split; [apply strtoks_words|]. change (strtoks (lit " ") (lit "c b")) with [lit "c"; lit "b"].
        apply (listed_plain_eq _ [lit "c"; lit "b"]); [reflexivity|]. constructor; [|constructor; [|constructor]]; unfold is_except, same_word; vm_compute; discriminate.
Qed.

Example directory_order_example :
  read_access_dir true (Some [lit "/d/20-b.conf"; lit "/d/10-a.conf"; lit "/d/15.conf"]) 3 = [lit "/d/10-a.conf"; lit "/d/15.conf"; lit "/d/20-b.conf"].
Proof. vm_compute. reflexivity. Qed.
Example origin_meaning_example :
  origin (Some (lit "h.example.org")) (Some (lit "ssh")) None None = Some (mkItem (Some (lit "h.example.org")) true) /\
  origin None (Some (lit "/dev/pts/0")) None (Some (lit "login")) = Some (mkItem (Some (lit "pts/0")) false).
Proof. split; reflexivity. Qed.

(** ** What is not so *)
(** C52: "a table that ends in a rule denying everyone lets nobody in unless a rule before does" is false: without a newline at its end the
    last rule does not count. *)
Theorem last_rule_counts_refuted : exists y u, y_file y ACCESS_CONF = Contents (lit "-:ALL:ALL") /\
  (forall args, args = [] -> forall h, h <> [] -> pam_access y (Some u) args (Some h) None None None = Ok PAM_SUCCESS).
Proof.
  exists (example_sys (lit "-:ALL:ALL")), (lit "john"). split; [reflexivity|]. intros args -> [|c h] H; [congruence|]. vm_compute. reflexivity.
Qed.
(** C52: a rule with a mistake is passed over, so that a denying rule with a mistake lets in. *)
Theorem malformed_rule_denies_refuted : exists y u, y_file y ACCESS_CONF = Contents (txt "-ALL:ALL") /\
  (forall h, h <> [] -> pam_access y (Some u) [] (Some h) None None None = Ok PAM_SUCCESS).
Proof. exists (example_sys (txt "-ALL:ALL")), (lit "john"). split; [reflexivity|]. intros [|c h] H; [congruence|]. vm_compute. reflexivity. Qed.
(** C52: "a rule lets in if its permission field is a plus sign" is false: with a separator before the field (which is
    accepted) it denies. *)
Theorem permission_field_decides_refuted : exists y u,
  y_file y ACCESS_CONF = Contents (txt ":+:ALL:ALL") /\ line_fields (lit ":") (txt ":+:ALL:ALL") = Some (lit "+", lit "ALL", lit "ALL") /\
  pam_access y (Some u) [] (Some (lit "10.0.0.1")) None None None = Ok PAM_PERM_DENIED.
Proof. exists (example_sys (txt ":+:ALL:ALL")), (lit "john"). split; [reflexivity|]. split; vm_compute; reflexivity. Qed.
(** C52: naming the default table with accessfile is not the same as not naming it: the tables of access.d are then not read. *)
Theorem default_accessfile_same_refuted : exists y u h,
  pam_access y (Some u) [] (Some h) None None None = Ok PAM_PERM_DENIED /\
  pam_access y (Some u) [lit "accessfile=/etc/security/access.conf"] (Some h) None None None = Ok PAM_SUCCESS.
Proof.
  exists (mkAsys (fun u => Some (u, 1003)) (fun _ => false) (fun _ => false) (fun _ _ _ => false) None pton_ex ntop_ex gai_ex numeric_ex (fun _ => false)
    (fun p => if streq p ACCESS_CONF then Contents [] else Contents (txt "-:ALL:ALL")) (Some [lit "/etc/security/access.d/a.conf"]) true 1), (lit "john"), (lit "10.0.0.1").
  split; vm_compute; reflexivity.
Qed.
(** C52: when memory runs out while the list of access.d is made, its tables do not count. *)
Theorem tables_read_or_denied_refuted : exists y u h, y_glob y = Some [lit "/etc/security/access.d/a.conf"] /\
  y_file y (lit "/etc/security/access.d/a.conf") = Contents (txt "-:ALL:ALL") /\ y_room y = 0%nat /\
  pam_access y (Some u) [] (Some h) None None None = Ok PAM_SUCCESS.
Proof.
  exists (mkAsys (fun u => Some (u, 1003)) (fun _ => false) (fun _ => false) (fun _ _ _ => false) None pton_ex ntop_ex gai_ex numeric_ex (fun _ => false)
    (fun p => if streq p ACCESS_CONF then Contents [] else Contents (txt "-:ALL:ALL")) (Some [lit "/etc/security/access.d/a.conf"]) true 0), (lit "john"), (lit "10.0.0.1").
  repeat split; vm_compute; reflexivity.
Qed.
(** A resolver for a host with an IPv4 and an IPv6 address, asked for all or for the IPv4 ones. *)
Definition gai_two (h : hint) (s : cstr) : option (list addr) :=
  if streq s (lit "h.org") then
    Some (match h with HInet => [] | _ => [mkAddr V6 [32; 1; 13; 184; 0; 0; 0; 0; 0; 0; 0; 0; 0; 0; 0; 7]] end ++ [mkAddr V4 [10; 1; 2; 3]])%list
  else if streq s (lit "2001:db8::7") then Some [mkAddr V6 [32; 1; 13; 184; 0; 0; 0; 0; 0; 0; 0; 0; 0; 0; 0; 7]] else None.
Definition pton_two (f : fam) (s : cstr) : option (list Z) :=
  match f with V4 => pton_example s | V6 => if streq s (lit "2001:db8::7") then Some [32; 1; 13; 184; 0; 0; 0; 0; 0; 0; 0; 0; 0; 0; 0; 7] else None end.
Definition numeric_two (a : addr) : option cstr := Some (match a_fam a with V4 => ntop_example (a_bytes a) | V6 => lit "2001:db8::7" end).
Definition two_sys (table : list ascii) : asys :=
  mkAsys (fun u => Some (u, 1003)) (fun _ => false) (fun _ => false) (fun _ _ _ => false) None pton_two ntop_ex gai_two numeric_two (fun _ => false)
    (fun p => if streq p ACCESS_CONF then Contents table else Missing) None true 0.
(** C52: "a rule that does not match has no influence" is false: a rule with a subnet keeps the host's IPv4 addresses only, and a later rule
    that names the host's IPv6 address no longer applies. *)
Theorem other_rules_do_not_matter_refuted : exists extra rule,
  pam_access (two_sys (txt extra)) (Some (lit "john")) [lit "fieldsep=|"] (Some (lit "h.org")) None None None = Ok PAM_SUCCESS /\
  pam_access (two_sys (txt rule)) (Some (lit "john")) [lit "fieldsep=|"] (Some (lit "h.org")) None None None = Ok PAM_PERM_DENIED /\
  pam_access (two_sys (txt extra ++ txt rule)) (Some (lit "john")) [lit "fieldsep=|"] (Some (lit "h.org")) None None None = Ok PAM_SUCCESS.
Proof. exists "-|ALL|192.168."%string, "-|ALL|2001:db8::7"%string. repeat split; vm_compute; reflexivity. Qed.
(** C52: an address that cannot be printed (an address with a scope whose name is long) makes the module read an uninitialised buffer. *)
Theorem no_undefined_behaviour_refuted : exists y, pam_access y (Some (lit "john")) [] (Some (lit "10.0.0.1")) None None None = UB.
Proof.
  exists (mkAsys (fun u => Some (u, 1003)) (fun _ => false) (fun _ => false) (fun _ _ _ => false) None pton_ex ntop_ex gai_ex (fun _ => None) (fun _ => false)
    (fun p => if streq p ACCESS_CONF then Contents (txt "+:ALL:10.0.0.7") else Missing) None true 0). vm_compute. reflexivity.
Qed.

Print Assumptions decision_unique.
Print Assumptions first_rule_decides.
Print Assumptions directory_order.
Print Assumptions base_name_meaning.
Print Assumptions module_decides.
Print Assumptions origin_meaning.
Print Assumptions last_rule_counts_refuted.
Print Assumptions malformed_rule_denies_refuted.
Print Assumptions permission_field_decides_refuted.
Print Assumptions default_accessfile_same_refuted.
Print Assumptions tables_read_or_denied_refuted.
Print Assumptions other_rules_do_not_matter_refuted.
Print Assumptions no_undefined_behaviour_refuted.
