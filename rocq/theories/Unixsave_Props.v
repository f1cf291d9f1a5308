(** C76, C77: the old passwords kept by pam_unix. *)
From Coq Require Import String Ascii List Arith NArith ZArith Bool Lia.
From Verif Require Import Base Num_Model Str_Model Str_Facts Opt_Model Opt_Facts Unix_Model Md5_Model Unixset_Model.
From Verif Require Import Md5_Props Md5crypt_Props Unixhash_Props.
From Verif Require Pwhist_Model Pwhist_Facts.
Import ListNotations.
Local Open Scope Z_scope.

(** ** Spec *)
(** A file of rows, each with its newline. *)
Definition text_of (rows : list cstr) : list ascii := concat (map (fun l => l ++ [c_nl])%list rows).
Definition clean (l : cstr) : Prop := ~ In c_nl l /\ ~ In NUL l.
(** A user name that can stand in the file. *)
Definition fit (u : cstr) : Prop := u <> [] /\ ~ In ":"%char u /\ clean u.
(** The rows of a user: the name alone, or the name and a colon. *)
Definition of_user (u row : cstr) : bool := streq row u || is_prefix (u ++ lit ":") row.
(** What is needed of the hash function: it gives hashes of the usual characters, which hash their password again to themselves. *)
Definition hash_chars (h : cstr) : Prop := forall c, In c h -> In c alphabet \/ c = "$"%char.
Definition hashing (md5 : cstr -> cstr -> option cstr) : Prop :=
  forall p s, Z.of_nat (length p) < 2 ^ 31 -> hash_chars s -> exists h, md5 p s = Some h /\ md5 p h = Some h /\ h <> [] /\ hash_chars h.
(** The function of pam_unix is one. *)
Theorem md5_hashing : forall hf big junk, hf = true \/ big = false -> length junk = 64%nat -> hashing (as_crypt (crypt_md5 hf big junk true)).
Proof.
  intros hf big junk G J p s L C. destruct (hash_form hf big junk G J p s L) as (t & e & E & S & LE & CE). exists (lit "$1$" ++ t ++ lit "$" ++ e)%list.
  unfold as_crypt. pose proof (hash_verifies hf big junk G J p s _ L E) as V. rewrite E, V. split; [reflexivity|]. split; [reflexivity|]. split; [discriminate|].
  intros c I. cbn [lit list_ascii_of_string app In] in I. destruct I as [<-|[<-|[<-|I]]]; [right; reflexivity|left; cbv; tauto|right; reflexivity|].
  apply in_app_or in I. destruct I as [I|[<-|I]]; [|right; reflexivity|left; apply CE; exact I]. apply C. inversion S as [t' r N LT D EQ|t' r P N LT D EQ]; subst.
  - cbn. right. right. right. apply in_or_app. left. exact I.
  - apply in_or_app. left. exact I.
Qed.
(** A hash of [p] made with some salt. *)
Definition hash_of (md5 : cstr -> cstr -> option cstr) (p h : cstr) : Prop := exists s, hash_chars s /\ md5 p s = Some h.
(** A row with a new hash at its end. *)
Definition fresh (md5 : cstr -> cstr -> option cstr) (u p row : cstr) : Prop :=
  exists uid n m h, row = (u ++ lit ":" ++ uid ++ lit ":" ++ n ++ lit ":" ++ m ++ h)%list /\ uid <> [] /\ ~ In ":"%char uid /\ n <> [] /\ ~ In ":"%char n /\
    (m = [] \/ exists m', m = (m' ++ lit ",")%list) /\ hash_of md5 p h.

(** ** Rows and lines *)
Lemma of_user_iff : forall u row, of_user u row = true <-> row = u \/ exists x, row = (u ++ ":"%char :: x)%list.
Proof.
  intros u row. unfold of_user. rewrite orb_true_iff, streq_eq, is_prefix_iff. split; (intros [H|(x & ->)]; [left; exact H|right; exists x]); rewrite <- app_assoc; reflexivity.
Qed.
Lemma text_cons : forall r rows, text_of (r :: rows) = (r ++ [c_nl] ++ text_of rows)%list.
Proof. intros. unfold text_of. cbn [map concat]. rewrite <- app_assoc. reflexivity. Qed.
Lemma text_app : forall a b, text_of (a ++ b) = (text_of a ++ text_of b)%list.
Proof. intros. unfold text_of. rewrite map_app, concat_app. reflexivity. Qed.
Lemma text_lines : forall rows, Forall clean rows -> lines_of (text_of rows) = map (fun l => l ++ [c_nl])%list rows.
Proof.
  intros rows F. induction F as [|r rows [N _] F IH]; [reflexivity|]. rewrite text_cons. rewrite app_assoc, lines_of_app by (exists r; auto). rewrite IH. reflexivity.
Qed.
Lemma cut_row : forall r, clean r -> Str_Model.cut (r ++ [c_nl]) = (r ++ [c_nl])%list.
Proof. intros r [N Z0]. apply cut_id. intro I. apply in_app_or in I. destruct I as [I|[I|[]]]; [contradiction|discriminate]. Qed.
Lemma own_row : forall u r, fit u -> clean r -> own_line u (r ++ [c_nl]) = of_user u r.
Proof.
  intros u r (NE & NC & CU & CZ) [N Z0]. apply eq_true_iff_eq. rewrite of_user_iff. unfold own_line. destruct (skip_prefix u (r ++ [c_nl])) as [t|] eqn:E.
  - apply skip_prefix_some in E. destruct t as [|c t].
    + exfalso. rewrite app_nil_r in E. apply CU. rewrite <- E. apply in_or_app. right. left. reflexivity.
    + rewrite orb_true_iff, !Ascii.eqb_eq. split.
      * intros [-> | ->].
        -- right. destruct (exists_last (l := ":"%char :: t)) as (t' & z & ET); [discriminate|]. rewrite ET, app_assoc in E. apply app_inj_tail in E. destruct E as [E <-]. destruct t' as [|y t']; [discriminate|]. injection ET as <- ->. exists t'. exact E.
        -- left. destruct t as [|y t]; [apply app_inj_tail in E; tauto|]. exfalso. destruct (exists_last (l := c_nl :: y :: t)) as (t' & z & ET); [discriminate|]. rewrite ET, app_assoc in E. apply app_inj_tail in E. destruct E as [E _]. apply N. rewrite E. apply in_or_app. right.
           destruct t' as [|w t']; [discriminate|]. injection ET as <- _. left. reflexivity.
      * intros [-> |(x & ->)].
        -- right. apply app_inv_head in E. injection E as <-. reflexivity.
        -- left. rewrite <- app_assoc in E. apply app_inv_head in E. injection E as <-. reflexivity.
  - split; [discriminate|]. intros H. exfalso. apply (skip_prefix_none _ _) in E. apply E. destruct H as [-> |(x & ->)]; [exists [c_nl]; reflexivity|exists (":"%char :: x ++ [c_nl])%list; rewrite <- app_assoc; reflexivity].
Qed.

(** ** A row is rewritten *)
Lemma clean_app : forall a b, clean (a ++ b) <-> clean a /\ clean b.
Proof. intros a b. unfold clean. rewrite !in_app_iff. tauto. Qed.
Lemma forget_range : forall fuel hm n s, 0 <= hm -> 0 <= n -> 0 <= fst (forget fuel hm n s) /\ (forall p, snd (forget fuel hm n s) = Some p -> exists q r, s = Some q /\ exists a, q = (a ++ p)%list /\ r = a).
Proof.
  induction fuel as [|fuel IH]; intros hm n s H N; cbn [forget].
  - split; [exact N|]. intros p E. cbn in E. subst s. exists p, []. split; [reflexivity|]. exists []. auto.
  - destruct s as [q|]; [|split; [exact N|discriminate]]. destruct (Z.ltb_spec hm n) as [L|L]; [|split; [exact N|]; intros p E; cbn in E; injection E as ->; exists p, []; split; [reflexivity|]; exists []; auto].
    destruct (IH hm (n - 1) (option_map snd (split_at ","%char q)) H ltac:(lia)) as [A B]. split; [exact A|]. intros p E. destruct (B p E) as (q' & r & EQ & a & -> & _).
    destruct (split_at ","%char q) as [[b c]|] eqn:ES; [|discriminate]. injection EQ as EQ. cbn in EQ. subst c. apply split_at_some in ES. destruct ES as [-> _]. eexists _, _. split; [reflexivity|]. exists (b ++ ","%char :: a)%list. rewrite <- app_assoc. split; reflexivity.
Qed.
Lemma digits_clean : forall s, forallb isdigit s = true -> clean s /\ ~ In ":"%char s /\ ~ In ","%char s.
Proof.
  intros s H. rewrite forallb_forall in H. repeat split; intro I; specialize (H _ I); discriminate.
Qed.
Lemma colon_sep : forall s, ~ In ":"%char s -> no_sep (lit ":") s.
Proof. intros s N c I [<-|[]]. contradiction. Qed.
Lemma sep_colon : forall s, no_sep (lit ":") s -> ~ In ":"%char s.
Proof. intros s N I. apply (N _ I). left. reflexivity. Qed.
Lemma tok_first : forall u x, fit u -> strtok (lit ":") (u ++ ":"%char :: x) = Some (u, x).
Proof. intros u x (NE & NC & _). apply (strtok_more (lit ":") [] u ":"%char x); [intros c []|exact NE|apply colon_sep; exact NC|left; reflexivity]. Qed.
Lemma tok_next : forall w x, w <> [] -> ~ In ":"%char w -> strtok (lit ":") (w ++ ":"%char :: x) = Some (w, x).
Proof. intros w x NE NC. apply (strtok_more (lit ":") [] w ":"%char x); [intros c []|exact NE|apply colon_sep; exact NC|left; reflexivity]. Qed.
Lemma tok_clean : forall s w r, strtok (lit ":") s = Some (w, r) -> clean s -> w <> [] /\ ~ In ":"%char w /\ clean w /\ clean r.
Proof.
  intros s w r H C. apply strtok_some in H. destruct H as (p & _ & W & N & [(-> & ->)|(x & _ & ->)]); split; try exact W; (split; [apply sep_colon; exact N|]).
  - apply clean_app in C. destruct C. split; [assumption|]. split; intros [].
  - apply clean_app in C. destruct C as [_ C]. apply clean_app in C. destruct C as [A B]. split; [exact A|]. change (x :: r) with ([x] ++ r)%list in B. apply clean_app in B. tauto.
Qed.
Lemma shortened_form : forall u hm row, fit u -> clean row -> of_user u row = true -> 0 < hm ->
  shortened hm row = None \/ exists uid n m, shortened hm row = Some (u ++ lit ":" ++ uid ++ lit ":" ++ n ++ lit ":" ++ m)%list /\
    uid <> [] /\ ~ In ":"%char uid /\ clean uid /\ n <> [] /\ ~ In ":"%char n /\ clean n /\ (m = [] \/ exists m', m = (m' ++ lit ",")%list) /\ clean m.
Proof.
  intros u hm row F C O H. apply of_user_iff in O. unfold shortened. destruct O as [-> |(x & ->)].
  - destruct F as (NE & NC & _). pose proof (strtok_last (lit ":") [] u) as T. cbn [app] in T. rewrite T by (solve [intros c []|exact NE|apply colon_sep; exact NC]). left. reflexivity.
  - rewrite tok_first by exact F. apply clean_app in C. destruct C as [_ C]. change (":"%char :: x) with (lit ":" ++ x)%list in C. apply clean_app in C. destruct C as [_ C].
    destruct (strtok (lit ":") x) as [[uid r]|] eqn:E1; [|left; reflexivity]. destruct (tok_clean _ _ _ E1 C) as (U1 & U2 & U3 & C1).
    destruct (strtok (lit ":") r) as [[n r']|] eqn:E2; [|left; reflexivity]. destruct (tok_clean _ _ _ E2 C1) as (_ & _ & _ & C2). right.
    set (np := match strtol n with (v, Some []) => if (v <? 0) || (INT_MAX <=? v) then 0 else v + 1 | _ => 0 end).
    assert (NP : 0 <= np).
    { unfold np. destruct (strtol n) as [v [[|]|]]; try lia. destruct (Z.ltb_spec v 0); cbn [orb]; [lia|]. destruct (INT_MAX <=? v); lia. }
    destruct (forget_range (S (length r')) hm np (match r' with [] => None | _ => Some r' end) ltac:(lia) NP) as [A B].
    destruct (forget (S (length r')) hm np (match r' with [] => None | _ => Some r' end)) as [np' pas]. cbn [fst snd] in A, B. destruct (decimal_value np' A) as (D & _ & DN). destruct (digits_clean _ D) as (DC & DD & _).
    exists uid, (decimal np'), (match pas with Some p => p ++ lit "," | None => [] end)%list. split; [reflexivity|]. repeat (split; [assumption|]). destruct pas as [p|].
    + split; [right; exists p; reflexivity|]. destruct (B p eq_refl) as (q & _ & EQ & a & -> & _). apply clean_app. split; [|split; intros [X|[]]; discriminate]. destruct r' as [|c r']; [discriminate|]. injection EQ as EQ. rewrite EQ in C2. apply clean_app in C2. tauto.
    + split; [left; reflexivity|split; intros []].
Qed.
Lemma salt_chars8 : forall rnd, hash_chars (lit "$1$" ++ make_salt rnd 8).
Proof.
  intros rnd c I. cbn in I. destruct I as [<-|[<-|[<-|I]]]; [right; reflexivity|left; cbv; tauto|right; reflexivity|]. left. apply (proj1 (proj2 (salt_meaning rnd 8))). exact I.
Qed.
Lemma hash_clean : forall h, hash_chars h -> clean h /\ ~ In ":"%char h /\ ~ In ","%char h.
Proof.
  intros h H. assert (N : forall c, In c h -> c <> c_nl /\ c <> NUL /\ c <> ":"%char /\ c <> ","%char).
  { intros c I. destruct (H c I) as [A| ->]; [|repeat split; discriminate]. clear I; revert c A; apply Forall_forall. repeat constructor; discriminate. }
  repeat split; intro I; specialize (N _ I); intuition.
Qed.

Section Save.
Variable md5 : cstr -> cstr -> option cstr.
Hypothesis MD : hashing md5.

Lemma wrapper_hash : forall rnd p, Z.of_nat (length p) < 2 ^ 31 -> exists h, md5_wrapper md5 rnd true p = Some h /\ hash_of md5 p h /\ md5 p h = Some h /\ h <> [] /\ hash_chars h.
Proof.
  intros rnd p L. destruct (MD p _ L (salt_chars8 rnd)) as (h & A & B & C & D). exists h. split; [exact A|]. split; [eexists; split; [apply (salt_chars8 rnd)|exact A]|]. auto.
Qed.

(** All the rows, when nothing fails to be written. *)
Lemma save_rows : forall I u p hm rows n found, fit u -> Z.of_nat (length p) < 2 ^ 31 -> 0 <= hm -> (forall k, i_put I k = true) -> (forall k, i_mem I k = true) -> Forall clean rows ->
  exists rows' f, save_lines md5 I u p hm n found (map (fun l => l ++ [c_nl])%list rows) = Ok (text_of rows', f, false) /\ Forall clean rows' /\
    filter (fun r => negb (of_user u r)) rows' = filter (fun r => negb (of_user u r)) rows /\
    (forall r, In r rows' -> of_user u r = true -> 0 < hm /\ fresh md5 u p r) /\
    (f = true -> found = true \/ hm = 0 \/ exists r, In r rows' /\ of_user u r = true) /\
    (f = false -> found = true -> exists r, In r rows /\ of_user u r = true) /\
    ((forall r, In r rows -> of_user u r = false) -> f = found /\ rows' = rows) /\
    (hm = 0 -> found = true \/ (exists r, In r rows /\ of_user u r = true) -> f = true).
Proof.
  intros I u p hm rows. induction rows as [|r rows IH]; intros n found F L H P M C.
  - exists [], found. cbn [map save_lines]. split; [reflexivity|]. split; [constructor|]. split; [reflexivity|]. split; [intros r []|]. split; [auto|]. split; [congruence|]. split; [auto|]. intros _ [X|(r & [] & _)]. exact X.
  - inversion C as [|? ? CR C']; subst. cbn [map save_lines]. rewrite (cut_row r CR). rewrite own_row by assumption. destruct (of_user u r) eqn:O.
    + assert (NON : forall rr, (forall x, In x (r :: rows) -> of_user u x = false) -> rr) by (intros rr A; specialize (A r (or_introl eq_refl)); congruence).
      destruct (Z.eqb_spec hm 0) as [Z0|Z0].
      * destruct (IH (S n) true F L H P M C') as (rows' & f & E & R1 & R2 & R3 & R4 & R5 & R6 & R7). exists rows', f. rewrite E. cbn [bind app]. split; [reflexivity|]. split; [exact R1|]. cbn [filter]. rewrite O. cbn [negb]. split; [exact R2|]. split; [exact R3|]. split; [intros; right; left; exact Z0|]. split; [|split; [apply NON|intros _ _; apply R7; [exact Z0|left; reflexivity]]].
        intros _ _. exists r. split; [left; reflexivity|exact O].
      * destruct (r ++ [c_nl])%list as [|z zs] eqn:EB; [destruct r; discriminate|]. rewrite <- EB. rewrite removelast_last. destruct (shortened_form u hm r F CR O ltac:(lia)) as [EN|(uid & k & m & EN & U1 & U2 & U3 & K1 & K2 & K3 & M1 & M2)]; rewrite EN.
        -- destruct (IH (S n) false F L H P M C') as (rows' & f & E & R1 & R2 & R3 & R4 & R5 & R6 & R7). exists rows', f. rewrite E. cbn [bind app]. split; [reflexivity|]. split; [exact R1|]. cbn [filter]. rewrite O. cbn [negb]. split; [exact R2|]. split; [exact R3|]. split; [intros X; destruct (R4 X) as [Y|Y]; [discriminate|right; exact Y]|]. split; [|split; [apply NON|intros X; contradiction]].
           intros _ _. exists r. split; [left; reflexivity|exact O].
        -- rewrite M. destruct (wrapper_hash (i_rnd I n) p L) as (h & EH & HO & _ & HN & HC). rewrite EH, P. destruct (IH (S n) true F L H P M C') as (rows' & f & E & R1 & R2 & R3 & R4 & R5 & R6 & R7).
           destruct (hash_clean h HC) as (H1 & H2 & _). set (new := (u ++ lit ":" ++ uid ++ lit ":" ++ k ++ lit ":" ++ m ++ h)%list). exists (new :: rows'), f. rewrite E. cbn [bind].
           assert (CC : forall s, ~ In c_nl (lit s) -> ~ In NUL (lit s) -> clean (lit s)) by (intros; split; assumption).
           assert (CN : clean new).
           { unfold new. destruct F as (_ & _ & CU). assert (C1 : clean (lit ":")) by (split; intros [X|[]]; discriminate). rewrite !clean_app. tauto. }
           assert (ON : of_user u new = true) by (apply of_user_iff; right; unfold new; eexists; reflexivity).
           split; [rewrite text_cons; unfold new; rewrite <- !app_assoc; reflexivity|]. split; [constructor; assumption|]. cbn [filter]. rewrite O, ON. cbn [negb]. split; [exact R2|]. split.
           ++ intros x [<-|X] OX; [|apply R3; assumption]. split; [lia|]. exists uid, k, m, h. repeat (split; [assumption || reflexivity|]). exact HO.
           ++ split; [intros _; right; right; exists new; split; [left; reflexivity|exact ON]|]. split; [|split; [apply NON|intros X; contradiction]]. intros _ _. exists r. split; [left; reflexivity|exact O].
    + rewrite P. destruct (IH (S n) found F L H P M C') as (rows' & f & E & R1 & R2 & R3 & R4 & R5 & R6 & R7). exists (r :: rows'), f. rewrite E. cbn [bind]. split; [rewrite text_cons, <- app_assoc; reflexivity|]. split; [constructor; assumption|]. cbn [filter]. rewrite O. cbn [negb]. split; [rewrite R2; reflexivity|]. split.
      * intros x [<-|X] OX; [congruence|apply R3; assumption].
      * split; [intros X; destruct (R4 X) as [Y|[Y|(y & Y & Z0)]]; [left; exact Y|right; left; exact Y|right; right; exists y; split; [right; exact Y|exact Z0]]|].
        split; [intros X Y; destruct (R5 X Y) as (y & A & B); exists y; split; [right; exact A|exact B]|].
        split; [intros A; destruct R6 as [-> ->]; [intros x X; apply A; right; exact X|]; auto|].
        intros X [Y|(y & [<-|Y] & Z0)]; [apply R7; auto|congruence|apply R7; [exact X|right; exists y; auto]].
Qed.

(** What is done to the file, in any case. *)
Lemma replaced : forall I d path body r d', replace I d path body = Ok (r, d') ->
  (r = PAM_SUCCESS /\ exists f t, d path = Some f /\ body (Pwhist_Model.f_data f) = Ok (false, t) /\
     d' = Pwhist_Model.put path (Some (Pwhist_Model.mkFile t (Pwhist_Model.f_mode f) (Pwhist_Model.f_uid f) (Pwhist_Model.f_gid f))) d) \/
  (r = PAM_AUTHTOK_ERR /\ (d' = d \/ i_fdopen I = false /\ d' = Pwhist_Model.put (i_tmp I) (Some (Pwhist_Model.mkFile [] 384 0 0)) d)).
Proof.
  intros I d path body r d' H. unfold replace in H. destruct (i_mkstemp I); cbn [negb] in H; [|right; injection H as <- <-; auto]. destruct (i_fdopen I); cbn [negb] in H; [|right; injection H as <- <-; auto].
  destruct (if i_open I then d path else None) as [f|] eqn:EF; [|right; injection H as <- <-; auto]. destruct (negb (i_stat I) || negb (i_chown I) || negb (i_chmod I)); [right; injection H as <- <-; auto|].
  destruct (body (Pwhist_Model.f_data f)) as [[err t]| |] eqn:EB; cbn [bind] in H; [|discriminate|discriminate]. destruct err; cbn [orb] in H; [right; injection H as <- <-; auto|].
  destruct (negb (i_sync I) || negb (i_close I) || negb (i_rename I)); [right; injection H as <- <-; auto|]. injection H as <- <-. left. split; [reflexivity|]. exists f, t. destruct (i_open I); [|discriminate]. auto.
Qed.

(** The rows of the others stay as they are; the rows of the user get the password, and there is one when passwords are to be remembered. On failure the
    old file stays. *)
Theorem old_password_saved : forall I uid d u p hm f rows, fit u -> Z.of_nat (length p) < 2 ^ 31 -> 0 <= hm -> (forall k, i_put I k = true) -> (forall k, i_mem I k = true) ->
  (forall n, uid = Some n -> 0 <= n) -> d OPASSWD = Some f -> Pwhist_Model.f_data f = text_of rows -> Forall clean rows ->
  exists r d', save_old md5 I uid d u (Some p) hm = Ok (r, d') /\
    (r = PAM_SUCCESS -> exists rows', d' = Pwhist_Model.put OPASSWD (Some (Pwhist_Model.mkFile (text_of rows') (Pwhist_Model.f_mode f) (Pwhist_Model.f_uid f) (Pwhist_Model.f_gid f))) d /\
       Forall clean rows' /\ filter (fun r => negb (of_user u r)) rows' = filter (fun r => negb (of_user u r)) rows /\
       (forall x, In x rows' -> of_user u x = true -> fresh md5 u p x) /\
       (0 < hm -> exists x, In x rows' /\ of_user u x = true) /\
       (hm = 0 -> (exists x, In x rows /\ of_user u x = true) -> forall x, In x rows' -> of_user u x = false)) /\
    (r <> PAM_SUCCESS -> r = PAM_AUTHTOK_ERR /\ (d' = d \/ i_fdopen I = false /\ d' = Pwhist_Model.put (i_tmp I) (Some (Pwhist_Model.mkFile [] 384 0 0)) d)).
Proof.
  intros I uid d u p hm f rows F L H P M UD DF DT C. assert (B : exists err rows', save_body md5 I uid u p hm (text_of rows) = Ok (err, text_of rows') /\ (err = false -> 
       Forall clean rows' /\ filter (fun r => negb (of_user u r)) rows' = filter (fun r => negb (of_user u r)) rows /\
       (forall x, In x rows' -> of_user u x = true -> fresh md5 u p x) /\
       (0 < hm -> exists x, In x rows' /\ of_user u x = true) /\
       (hm = 0 -> (exists x, In x rows /\ of_user u x = true) -> forall x, In x rows' -> of_user u x = false))).
  { unfold save_body. rewrite text_lines by exact C. destruct (save_rows I u p hm rows 0 false F L H P M C) as (rows' & fd & E & R1 & R2 & R3 & R4 & R5 & R6 & R7). rewrite E. cbn [bind]. destruct fd.
    - exists false, rows'. split; [reflexivity|]. intros _. split; [exact R1|]. split; [exact R2|]. split; [intros x X Y; apply (R3 x X Y)|]. split.
      + intros X. destruct (R4 eq_refl) as [Y|[Y|Y]]; [discriminate|lia|exact Y].
      + intros X _ x IX. destruct (of_user u x) eqn:OX; [|reflexivity]. destruct (R3 x IX OX). lia.
    - destruct uid as [n|]; [|exists true, rows'; split; [reflexivity|discriminate]]. rewrite M. destruct (wrapper_hash (i_rnd I (length (map (fun l => l ++ [c_nl])%list rows))) p L) as (h & EH & HO & _ & HN & HC). rewrite EH.
      destruct (i_add I); [|exists true, rows'; split; [reflexivity|discriminate]]. set (new := (u ++ lit ":" ++ decimal n ++ lit ":1:" ++ h)%list). exists false, (rows' ++ [new])%list. split.
      + rewrite text_app, text_cons. unfold new, text_of. cbn [map concat]. rewrite <- !app_assoc. reflexivity.
      + intros _. destruct (decimal_value n (UD n eq_refl)) as (D & _ & DN). destruct (digits_clean _ D) as (DC & DD & _). destruct (hash_clean h HC) as (H1 & H2 & _).
        assert (CN : clean new).
        { unfold new. destruct F as (_ & _ & CU). assert (C1 : clean (lit ":")) by (split; intros [X|[]]; discriminate). assert (C2 : clean (lit ":1:")) by (split; intros [X|[X|[X|[]]]]; discriminate). rewrite !clean_app. tauto. }
        assert (ON : of_user u new = true) by (apply of_user_iff; right; unfold new; eexists; reflexivity).
        split; [apply Forall_app; split; [exact R1|constructor; [exact CN|constructor]]|]. split; [rewrite filter_app; cbn [filter]; rewrite ON; cbn [negb]; rewrite app_nil_r; exact R2|]. split.
        * intros x X OX. apply in_app_or in X. destruct X as [X|[<-|[]]]; [apply (R3 x X OX)|]. exists (decimal n), (lit "1"), [], h. split; [reflexivity|]. split; [exact DN|]. split; [exact DD|]. split; [discriminate|].
          split; [intros [X|[]]; discriminate|]. split; [left; reflexivity|exact HO].
        * split; [intros _; exists new; split; [apply in_or_app; right; left; reflexivity|exact ON]|]. intros X Y. exfalso. specialize (R7 X (or_intror Y)). discriminate. }
  destruct B as (err & rows' & EB & SP). assert (T : exists r d', save_old md5 I uid d u (Some p) hm = Ok (r, d')).
  { unfold save_old. destruct (Z.ltb_spec hm 0); [lia|]. unfold replace. destruct (negb (i_mkstemp I)); [eauto|]. destruct (negb (i_fdopen I)); [eauto|]. rewrite DF. destruct (i_open I); [|eauto]. rewrite DT, EB. destruct (negb (i_stat I) || negb (i_chown I) || negb (i_chmod I)); [eauto|]. cbn [bind]. destruct (err || negb (i_sync I) || negb (i_close I) || negb (i_rename I)); eauto. }
  destruct T as (r & d' & E). exists r, d'. split; [exact E|]. unfold save_old in E. destruct (Z.ltb_spec hm 0); [lia|]. apply replaced in E. destruct E as [(-> & f' & t & DF' & EB' & ->)|(-> & E)].
  - split; [|congruence]. intros _. rewrite DF in DF'. injection DF' as <-. rewrite DT, EB in EB'. injection EB' as -> <-. exists rows'. split; [reflexivity|]. apply SP. reflexivity.
  - split; [discriminate|]. intros _. auto.
Qed.
End Save.

(** ** The history of a user *)
Import Pwhist_Facts.
Lemma strtol_decimal : forall n, 0 <= n <= LONG_MAX -> strtol (decimal n) = (n, Some []).
Proof.
  intros n N. destruct (decimal_value n ltac:(lia)) as (D & V & NE). apply strtol_some. exists false, n. split; [|unfold long_of; assert (LONG_MIN < 0) by reflexivity; lia].
  exists [], [], (decimal n). rewrite app_nil_r. cbn [app]. split; [reflexivity|]. split; [reflexivity|]. split; [right; split; [reflexivity|left; reflexivity]|]. split; [|left; reflexivity].
  rewrite forallb_forall in D. split; [exact NE|]. split.
  - intros c I. apply D in I. unfold hex_val. rewrite I. unfold isdigit in I. apply andb_true_iff in I. destruct I as (A & B). apply Nat.leb_le in A, B. unfold digit_val. lia.
  - rewrite <- V at 1. unfold value. generalize 0. generalize (decimal n) as s, D. clear. induction s as [|c s IH]; intros D acc; [reflexivity|]. cbn [fold_left]. rewrite IH by (intros x X; apply D; right; exact X). f_equal. specialize (D c (or_introl eq_refl)). unfold hex_val. rewrite D. lia.
Qed.
Definition row_of (u uid : cstr) (hs : list cstr) : cstr := (u ++ lit ":" ++ uid ++ lit ":" ++ decimal (Z.of_nat (length hs)) ++ lit ":" ++ join ","%char hs)%list.
(** A user whose only row keeps the hashes [hs], oldest first. *)
Definition history (d : Pwhist_Model.disk) (u : cstr) (hs : list cstr) : Prop :=
  fit u /\ hs <> [] /\ Z.of_nat (length hs) < INT_MAX /\ (forall h, In h hs -> h <> [] /\ hash_chars h) /\
  exists f before after uid, d OPASSWD = Some f /\ Pwhist_Model.f_data f = text_of (before ++ row_of u uid hs :: after) /\ Forall clean before /\ Forall clean after /\
    (forall r, In r (before ++ after) -> of_user u r = false) /\ uid <> [] /\ ~ In ":"%char uid /\ clean uid.
Definition older (hs : list cstr) : option cstr := match hs with [] => None | _ => Some (join ","%char hs) end.
Lemma forget_older : forall hs fuel hm, (forall h, In h hs -> ~ In ","%char h) -> (length hs < fuel)%nat -> 0 < hm ->
  forget fuel hm (Z.of_nat (length hs) + 1) (older hs) = (Z.min (Z.of_nat (length hs) + 1) hm, older (skipn (Z.to_nat (Z.of_nat (length hs) + 1 - hm)) hs)).
Proof.
  induction hs as [|h hs IH]; intros fuel hm N F H.
  - destruct fuel; cbn [forget older length]; rewrite skipn_nil; f_equal; cbn; lia.
  - destruct fuel as [|fuel]; [cbn in F; lia|]. cbn [forget]. change (older (h :: hs)) with (Some (join ","%char (h :: hs))) at 1. cbn iota. destruct (Z.ltb_spec hm (Z.of_nat (length (h :: hs)) + 1)) as [L|L].
    + assert (E : option_map snd (split_at ","%char (join ","%char (h :: hs))) = older hs).
      { destruct hs as [|h' hs].
        - cbn [join]. destruct (split_at ","%char h) as [[a b]|] eqn:ES; [|reflexivity]. apply split_at_some in ES. destruct ES as [-> _]. exfalso. apply (N (a ++ ","%char :: b)%list (or_introl eq_refl)). apply in_or_app. right. left. reflexivity.
        - rewrite join_cons by discriminate. assert (ES : split_at ","%char (h ++ ","%char :: join ","%char (h' :: hs)) = Some (h, join ","%char (h' :: hs))) by (apply split_at_some; split; [reflexivity|apply N; left; reflexivity]). rewrite ES. reflexivity. }
      rewrite E. cbn [length] in F |- *. replace (Z.of_nat (S (length hs)) + 1 - 1) with (Z.of_nat (length hs) + 1) by lia. rewrite IH; [|intros x X; apply N; right; exact X|lia|exact H]. cbn [length] in L. replace (Z.to_nat (Z.of_nat (S (length hs)) + 1 - hm)) with (S (Z.to_nat (Z.of_nat (length hs) + 1 - hm))) by lia. cbn [skipn]. f_equal. lia.
    + replace (Z.to_nat (Z.of_nat (length (h :: hs)) + 1 - hm)) with 0%nat by lia. cbn [skipn]. f_equal. lia.
Qed.
Lemma join_last : forall hs h, join ","%char (hs ++ [h]) = (match older hs with Some p => p ++ lit "," | None => [] end ++ h)%list.
Proof.
  induction hs as [|a hs IH]; intros h; [reflexivity|]. cbn [app]. rewrite join_cons by (destruct hs; discriminate). rewrite IH. destruct hs as [|b hs]; cbn [older]; [cbn [join app]; rewrite <- app_assoc; reflexivity|].
  rewrite (join_cons ","%char a (b :: hs)) by discriminate. repeat (rewrite <- app_assoc; cbn [app]). reflexivity.
Qed.
(** The newest [n] of a list. *)
Definition newest (n : Z) (hs : list cstr) : list cstr := skipn (length hs - Z.to_nat n) hs.
Lemma shortened_row : forall u uid hs hm h, fit u -> uid <> [] -> ~ In ":"%char uid -> hs <> [] -> (forall x, In x hs -> x <> [] /\ hash_chars x) -> Z.of_nat (length hs) < INT_MAX -> 0 < hm ->
  exists s, shortened hm (row_of u uid hs) = Some s /\ (s ++ h)%list = row_of u uid (newest hm (hs ++ [h])).
Proof.
  intros u uid hs hm h F U1 U2 NE HH LI H. unfold shortened, row_of. cbn [lit list_ascii_of_string app]. rewrite tok_first by exact F.
  rewrite tok_next by assumption.
  destruct (decimal_value (Z.of_nat (length hs)) ltac:(lia)) as (D & _ & DN). rewrite tok_next by (exact DN || apply digits_clean; exact D).
  assert (IL : INT_MAX < LONG_MAX) by reflexivity. rewrite strtol_decimal by (split; [apply Nat2Z.is_nonneg|apply Z.lt_le_incl, (Z.lt_trans _ _ _ LI IL)]). match goal with |- context [if ?c then 0 else _] => replace c with false by (symmetry; apply orb_false_iff; split; [apply Z.ltb_ge, Nat2Z.is_nonneg|apply Z.leb_gt; exact LI]) end.
  assert (NEJ : join ","%char hs <> []) by (destruct hs as [|a hs]; [congruence|]; destruct (HH a (or_introl eq_refl)) as [A _]; destruct hs; cbn [join]; destruct a; congruence || discriminate).
  assert (EO : match join ","%char hs with [] => None | _ => Some (join ","%char hs) end = older hs) by (destruct (join ","%char hs) eqn:EJ; [congruence|]; destruct hs; [discriminate|]; cbn [older]; congruence).
  assert (NC : forall x, In x hs -> ~ In ","%char x) by (intros x X; apply hash_clean; apply HH; exact X).
  assert (LJ : (length hs <= length (join ","%char hs))%nat).
  { clear - HH. induction hs as [|a hs IH]; [cbn; lia|]. destruct (HH a (or_introl eq_refl)) as [A _]. destruct hs as [|b hs]; [destruct a; [congruence|cbn; lia]|]. rewrite join_cons by discriminate. rewrite app_length. cbn [length] in *. specialize (IH ltac:(intros x X; apply HH; right; exact X)). lia. }
  replace (match join ","%char hs with [] => None | _ => Some (join ","%char hs) end) with (older hs) by (symmetry; exact EO). pose proof (forget_older hs (S (length (join ","%char hs))) hm NC ltac:(lia) H) as FG. match goal with |- context [forget ?a ?b ?c ?e] => replace (forget a b c e) with (Z.min (Z.of_nat (length hs) + 1) hm, older (skipn (Z.to_nat (Z.of_nat (length hs) + 1 - hm)) hs)) by (symmetry; exact FG) end. cbn iota beta. eexists. split; [reflexivity|].
  assert (EN : newest hm (hs ++ [h]) = (skipn (Z.to_nat (Z.of_nat (length hs) + 1 - hm)) hs ++ [h])%list).
  { unfold newest. rewrite app_length. cbn [length]. replace (length hs + 1 - Z.to_nat hm)%nat with (Z.to_nat (Z.of_nat (length hs) + 1 - hm)) by lia. rewrite skipn_app. replace (Z.to_nat (Z.of_nat (length hs) + 1 - hm) - length hs)%nat with 0%nat by lia. reflexivity. }
  rewrite EN. assert (EL : Z.of_nat (length (skipn (Z.to_nat (Z.of_nat (length hs) + 1 - hm)) hs ++ [h])) = Z.min (Z.of_nat (length hs) + 1) hm) by (rewrite app_length, skipn_length; cbn [length]; lia).
  match goal with |- context [decimal (Z.of_nat ?k)] => replace (Z.of_nat k) with (Z.min (Z.of_nat (length hs) + 1) hm) by (symmetry; exact EL) end. rewrite join_last. cbn [lit list_ascii_of_string app]. repeat (rewrite <- app_assoc; cbn [app]). reflexivity.
Qed.

Section History.
Variable md5 : cstr -> cstr -> option cstr.
Hypothesis MD : hashing md5.

Lemma save_pass : forall I u p hm rows n found ls, fit u -> (forall k, i_put I k = true) -> Forall clean rows -> (forall r, In r rows -> of_user u r = false) ->
  save_lines md5 I u p hm n found (map (fun l => l ++ [c_nl])%list rows ++ ls) = bind (save_lines md5 I u p hm (n + length rows) found ls) (fun '(t, f, e) => Ok ((text_of rows ++ t)%list, f, e)).
Proof.
  intros I u p hm rows. induction rows as [|r rows IH]; intros n found ls F P C O.
  - cbn [map app length]. rewrite Nat.add_0_r. destruct (save_lines md5 I u p hm n found ls) as [[[t f] e]| |]; reflexivity.
  - inversion C as [|? ? CR C']; subst. cbn [map app save_lines]. rewrite (cut_row r CR), own_row, (O r (or_introl eq_refl)), P by assumption. rewrite (IH (S n)) by (assumption || intros x X; apply O; right; exact X).
    cbn [length]. replace (n + S (length rows))%nat with (S n + length rows)%nat by lia. destruct (save_lines md5 I u p hm (S n + length rows) found ls) as [[[t f] e]| |]; cbn [bind]; try reflexivity. rewrite text_cons, <- !app_assoc. reflexivity.
Qed.
Lemma row_clean : forall u uid hs, fit u -> clean uid -> (forall x, In x hs -> hash_chars x) -> clean (row_of u uid hs).
Proof.
  intros u uid hs (_ & _ & CU) C HH. unfold row_of. assert (C1 : clean (lit ":")) by (split; intros [X|[]]; discriminate). assert (C2 : clean (lit ",")) by (split; intros [X|[]]; discriminate). rewrite !clean_app.
  destruct (decimal_value (Z.of_nat (length hs)) ltac:(lia)) as (D & _ & _). apply digits_clean in D. assert (CJ : clean (join ","%char hs)); [|tauto].
  clear - HH C2. induction hs as [|a hs IH]; [split; intros []|]. assert (CA : clean a) by (apply hash_clean, HH; left; reflexivity). destruct hs as [|b hs]; [exact CA|]. rewrite join_cons by discriminate. change (","%char :: join ","%char (b :: hs)) with (lit "," ++ join ","%char (b :: hs))%list. rewrite !clean_app. split; [exact CA|]. split; [exact C2|]. apply IH. intros x X. apply HH. right. exact X.
Qed.
Lemma in_newest : forall n hs (h : cstr), In h (newest n hs) -> In h hs.
Proof. intros n hs h I. unfold newest in I. rewrite <- (firstn_skipn (length hs - Z.to_nat n) hs). apply in_or_app. right. exact I. Qed.

(** Saving a password adds its hash to the history and forgets the oldest ones. *)
Theorem history_saved : forall I uid d d' u p hm hs, history d u hs -> Z.of_nat (length p) < 2 ^ 31 -> 0 < hm < INT_MAX -> (forall k, i_put I k = true) -> (forall k, i_mem I k = true) ->
  save_old md5 I uid d u (Some p) hm = Ok (PAM_SUCCESS, d') -> exists h, md5 p h = Some h /\ history d' u (newest hm (hs ++ [h])).
Proof.
  intros I uid d d' u p hm hs (F & NE & LI & HH & f & before & after & i & DF & DT & CB & CA & O & I1 & I2 & I3) L H P M E. unfold save_old in E. destruct (Z.ltb_spec hm 0); [lia|]. apply replaced in E. destruct E as [(_ & f' & t & DF' & EB & ->)|(X & _)]; [|discriminate].
  rewrite DF in DF'. injection DF' as <-. rewrite DT in EB. assert (HC : forall x, In x hs -> hash_chars x) by (intros x X; apply HH; exact X). pose proof (row_clean u i hs F I3 HC) as CR.
  assert (CC : Forall clean (before ++ row_of u i hs :: after)) by (apply Forall_app; split; [exact CB|constructor; assumption]).
  unfold save_body in EB. rewrite text_lines in EB by exact CC. rewrite map_app in EB. rewrite save_pass in EB by (assumption || intros x X; apply O, in_or_app; left; exact X).
  cbn [map save_lines] in EB. rewrite (cut_row _ CR), own_row in EB by assumption. assert (OR : of_user u (row_of u i hs) = true) by (apply of_user_iff; right; eexists; reflexivity). rewrite OR in EB.
  destruct (Z.eqb_spec hm 0); [lia|]. destruct (row_of u i hs ++ [c_nl])%list as [|z zs] eqn:EZ in EB; [destruct (row_of u i hs); discriminate|]. rewrite <- EZ in EB. rewrite removelast_last in EB.
  rewrite M in EB. destruct (wrapper_hash md5 MD (i_rnd I (0 + length before)) p L) as (h & EH & HO & HV & HN & HHC). rewrite EH, P in EB.
  destruct (shortened_row u i hs hm h F I1 I2 NE HH LI ltac:(lia)) as (s & ES & EQ). rewrite ES in EB.
  pose proof (save_pass I u p hm after (S (0 + length before)) true [] F P CA ltac:(intros x X; apply O, in_or_app; right; exact X)) as SA. rewrite app_nil_r in SA. cbn [save_lines bind] in SA. rewrite app_nil_r in SA. match type of EB with context [save_lines md5 I u p hm ?k true ?l] => replace (save_lines md5 I u p hm k true l) with (Ok (text_of after, true, false)) in EB by (symmetry; exact SA) end. cbn [bind] in EB. injection EB as <-.
  exists h. split; [exact HV|]. set (hs' := newest hm (hs ++ [h])) in *.
  assert (ET : (text_of before ++ (s ++ h ++ [c_nl]) ++ text_of after)%list = text_of (before ++ row_of u i hs' :: after)) by (rewrite text_app, text_cons; replace (row_of u i hs') with (s ++ h)%list by exact EQ; rewrite <- !app_assoc; reflexivity). rewrite ET.
  assert (LN : length hs' = (length hs + 1 - (length hs + 1 - Z.to_nat hm))%nat) by (unfold hs', newest; rewrite skipn_length, app_length; reflexivity).
  assert (HH' : forall x, In x hs' -> x <> [] /\ hash_chars x) by (intros x X; apply in_newest in X; apply in_app_or in X; destruct X as [X|[<-|[]]]; [apply HH; exact X|split; assumption]).
  split; [exact F|]. split; [intro X; rewrite X in LN; cbn [length] in LN; lia|]. split; [rewrite LN; lia|]. split; [exact HH'|].
  eexists _, before, after, i. split; [unfold Pwhist_Model.put; rewrite streq_refl; reflexivity|]. split; [reflexivity|]. auto 10.
Qed.
(** The first password saved for a user without rows. *)
Theorem history_begins : forall I uid d d' u p hm f rows, fit u -> Z.of_nat (length p) < 2 ^ 31 -> 0 <= hm -> (forall k, i_put I k = true) -> (forall k, i_mem I k = true) ->
  (forall n, uid = Some n -> 0 <= n) -> d OPASSWD = Some f -> Pwhist_Model.f_data f = text_of rows -> Forall clean rows -> (forall r, In r rows -> of_user u r = false) ->
  save_old md5 I uid d u (Some p) hm = Ok (PAM_SUCCESS, d') -> exists h, md5 p h = Some h /\ history d' u [h].
Proof.
  intros I uid d d' u p hm f rows F L H P M UD DF DT C O E. unfold save_old in E. destruct (Z.ltb_spec hm 0); [lia|]. apply replaced in E. destruct E as [(_ & f' & t & DF' & EB & ->)|(X & _)]; [|discriminate].
  rewrite DF in DF'. injection DF' as <-. rewrite DT in EB. unfold save_body in EB. rewrite text_lines in EB by exact C.
  pose proof (save_pass I u p hm rows 0 false [] F P C O) as SA. rewrite app_nil_r in SA. rewrite SA in EB. cbn [save_lines bind] in EB. rewrite app_nil_r in EB. destruct uid as [n|]; [|discriminate]. rewrite M in EB.
  destruct (wrapper_hash md5 MD (i_rnd I (length (map (fun l => l ++ [c_nl])%list rows))) p L) as (h & EH & HO & HV & HN & HHC). rewrite EH in EB. destruct (i_add I); [|discriminate].
  assert (ET : t = text_of (rows ++ [row_of u (decimal n) [h]])) by (injection EB as <-; rewrite text_app, text_cons; unfold row_of, text_of at 2; cbn [map concat length join]; rewrite <- !app_assoc; reflexivity). clear EB. subst t.
  destruct (decimal_value n (UD n eq_refl)) as (D & _ & DN). destruct (digits_clean _ D) as (DC & DD & _). exists h. split; [exact HV|]. split; [exact F|]. split; [discriminate|]. split; [reflexivity|]. split; [intros x [<-|[]]; split; assumption|].
  eexists _, rows, [], (decimal n). split; [unfold Pwhist_Model.put; rewrite streq_refl; reflexivity|]. split; [reflexivity|]. rewrite app_nil_r. auto 10.
Qed.

(** A last line that is only the name of the user, without newline, gives way to a new row. *)
Theorem bare_name_replaced : forall I uid d d' u p hm f rows, fit u -> Z.of_nat (length p) < 2 ^ 31 -> 0 < hm -> (forall k, i_put I k = true) -> (forall k, i_mem I k = true) ->
  (forall n, uid = Some n -> 0 <= n) -> d OPASSWD = Some f -> Pwhist_Model.f_data f = (text_of rows ++ u)%list -> Forall clean rows -> (forall r, In r rows -> of_user u r = false) ->
  save_old md5 I uid d u (Some p) hm = Ok (PAM_SUCCESS, d') -> exists h, md5 p h = Some h /\ history d' u [h].
Proof.
  intros I uid d d' u p hm f rows F L H P M UD DF DT C O E. unfold save_old in E. destruct (Z.ltb_spec hm 0); [lia|]. apply replaced in E. destruct E as [(_ & f' & t & DF' & EB & ->)|(X & _)]; [|discriminate].
  rewrite DF in DF'. injection DF' as <-. rewrite DT in EB. unfold save_body in EB. pose proof F as (NE & NC & CU & CZ).
  assert (LI : lines_of (text_of rows ++ u) = (map (fun l => l ++ [c_nl])%list rows ++ [u])%list).
  { clear - C NE CU. induction C as [|r rows [N _] C IH]; [cbn [text_of map concat app]; rewrite lines_of_tail by exact CU; destruct u; [congruence|reflexivity]|].
    rewrite text_cons, <- app_assoc. rewrite <- app_assoc. cbn [map app]. replace (r ++ c_nl :: text_of rows ++ u)%list with ((r ++ [c_nl]) ++ text_of rows ++ u)%list by (rewrite <- app_assoc; reflexivity). rewrite lines_of_app by (exists r; auto). rewrite IH. reflexivity. }
  rewrite LI in EB. rewrite save_pass in EB by assumption. cbn [save_lines] in EB. rewrite cut_id in EB by exact CZ.
  assert (OW : own_line u u = true). { unfold own_line. destruct (skip_prefix u u) as [x|] eqn:E; [|exfalso; apply skip_prefix_none in E; apply E; exists []; rewrite app_nil_r; reflexivity]. apply skip_prefix_some in E. destruct x as [|c x]; [reflexivity|]. apply (f_equal (@length ascii)) in E. rewrite app_length in E. cbn in E. lia. }
  assert (SH : shortened hm (removelast u) = None).
  { assert (NR : ~ In ":"%char (removelast u)). { intro X. apply NC. rewrite (app_removelast_last NUL NE). apply in_or_app. left. exact X. }
    unfold shortened. destruct (removelast u) as [|c r] eqn:ER; [reflexivity|]. destruct (strtok (lit ":") (c :: r)) as [(w, z)|] eqn:ET; [|reflexivity].
    assert (EW : strtok (lit ":") ([] ++ (c :: r)) = Some (c :: r, [])) by (apply strtok_last; [intros ? []|discriminate|intros x X [<-|[]]; contradiction]). cbn [app] in EW. rewrite EW in ET. injection ET as <- <-. reflexivity. }
  rewrite OW, SH in EB. destruct (Z.eqb_spec hm 0) as [HZ|HZ]; [lia|]. destruct u as [|c0 u0] eqn:EU; [congruence|]. rewrite <- EU in *. cbn [bind app] in EB. rewrite app_nil_r in EB. destruct uid as [n|]; [|discriminate]. rewrite M in EB.
  destruct (wrapper_hash md5 MD (i_rnd I (length (map (fun l => l ++ [c_nl])%list rows ++ [u]))) p L) as (h & EH & HO & HV & HN & HHC). rewrite EH in EB. destruct (i_add I); [|discriminate].
  assert (ET : t = text_of (rows ++ [row_of u (decimal n) [h]])) by (injection EB as <-; rewrite text_app, text_cons; unfold row_of, text_of at 2; cbn [map concat length join]; rewrite <- !app_assoc; reflexivity). clear EB. subst t.
  destruct (decimal_value n (UD n eq_refl)) as (D & _ & DN). destruct (digits_clean _ D) as (DC & DD & _). exists h. split; [exact HV|]. split; [exact F|]. split; [discriminate|]. split; [reflexivity|]. split; [intros x [<-|[]]; split; assumption|].
  eexists _, rows, [], (decimal n). split; [unfold Pwhist_Model.put; rewrite streq_refl; reflexivity|]. split; [reflexivity|]. rewrite app_nil_r. auto 10.
Qed.

(** ** Comparing *)
Lemma used_iff : forall mem p hs n, (forall k, mem k = true) -> (used_before md5 mem p n hs = true <-> exists h, In h hs /\ (md5 p h = None \/ md5 p h = Some h)).
Proof.
  intros mem p hs. induction hs as [|h hs IH]; intros n M; cbn [used_before]; [split; [discriminate|intros (h & [] & _)]|]. rewrite M. destruct (md5 p h) as [x|] eqn:E.
  - rewrite orb_true_iff, streq_eq, IH by exact M. split.
    + intros [-> |(y & Y & Z0)]; [exists h; split; [left; reflexivity|right; exact E]|exists y; split; [right; exact Y|exact Z0]].
    + intros (y & [<-|Y] & Z0); [left; destruct Z0; congruence|right; exists y; auto].
  - split; [intros _; exists h; split; [left; reflexivity|left; exact E]|reflexivity].
Qed.
Lemma find_first : forall u rows r after, fit u -> Forall clean rows -> clean r -> (forall x, In x rows -> of_user u x = true -> x = u) -> is_prefix (u ++ lit ":") r = true ->
  find_line u (map (fun l => l ++ [c_nl])%list rows ++ (r ++ [c_nl])%list :: after) = Some (r ++ [c_nl])%list.
Proof.
  intros u rows r after F C CR O PR. induction C as [|x rows CX C IH].
  - cbn [map app find_line]. rewrite cut_row by exact CR. apply is_prefix_iff in PR. destruct PR as (t & ->). rewrite <- app_assoc. destruct (skip_prefix (u ++ lit ":") ((u ++ lit ":") ++ t ++ [c_nl])) eqn:E; [reflexivity|]. exfalso. apply skip_prefix_none in E. apply E. eexists. reflexivity.
  - cbn [map app find_line]. rewrite cut_row by exact CX. destruct (skip_prefix (u ++ lit ":") (x ++ [c_nl])) as [t|] eqn:E.
    + exfalso. apply skip_prefix_some in E. assert (OW : own_line u (x ++ [c_nl]) = true).
      { unfold own_line. rewrite E, <- app_assoc. destruct (skip_prefix u (u ++ lit ":" ++ t)) as [y|] eqn:EY; [apply skip_prefix_some in EY; apply app_inv_head in EY; rewrite <- EY; reflexivity|]. exfalso. apply skip_prefix_none in EY. apply EY. eexists. reflexivity. }
      rewrite own_row in OW by assumption. apply O in OW; [|left; reflexivity]. subst x. rewrite <- app_assoc in E. apply app_inv_head in E. destruct t; discriminate.
    + apply IH. intros y Y. apply O. right. exact Y.
Qed.
Lemma words_join : forall hs, hs <> [] -> (forall x, In x hs -> x <> [] /\ ~ In ","%char x) -> Str_Facts.words (lit ",") (join ","%char hs) hs.
Proof.
  intros hs. induction hs as [|a hs IH]; intros NE HH; [congruence|]. destruct (HH a (or_introl eq_refl)) as [A1 A2]. assert (NS : no_sep (lit ",") a) by (intros c X [<-|[]]; contradiction). destruct hs as [|b hs].
  - apply (words_last (lit ",") [] a); [intros c []|exact A1|exact NS].
  - rewrite join_cons by discriminate. apply (words_more (lit ",") [] a ","%char); [intros c []|exact A1|exact NS|left; reflexivity|]. apply IH; [discriminate|]. intros x X. apply HH. right. exact X.
Qed.
(** A new password is refused when it matches a hash of the history. *)
Theorem history_check : forall mem d u hs p, history d u hs -> (forall k, mem k = true) ->
  check_old md5 true mem d u p = (if used_before md5 mem p 0 hs then PAM_AUTHTOK_ERR else PAM_SUCCESS) /\
  (check_old md5 true mem d u p = PAM_AUTHTOK_ERR <-> exists h, In h hs /\ (md5 p h = None \/ md5 p h = Some h)).
Proof.
  intros mem d u hs p (F & NE & LI & HH & f & before & after & i & DF & DT & CB & CA & O & I1 & I2 & I3) M.
  assert (E : check_old md5 true mem d u p = (if used_before md5 mem p 0 hs then PAM_AUTHTOK_ERR else PAM_SUCCESS)).
  { assert (HC : forall x, In x hs -> hash_chars x) by (intros x X; apply HH; exact X). pose proof (row_clean u i hs F I3 HC) as CR. unfold check_old. rewrite DF, DT. rewrite text_lines by (apply Forall_app; split; [exact CB|constructor; assumption]). rewrite map_app. cbn [map].
    rewrite find_first; [|exact F|exact CB|exact CR|intros x X Y; rewrite (O x) in Y; [discriminate|apply in_or_app; left; exact X]|apply is_prefix_iff; eexists; unfold row_of; rewrite <- app_assoc; reflexivity].
    rewrite removelast_last. replace (old_passwords (row_of u i hs)) with hs; [reflexivity|]. unfold old_passwords, row_of. cbn [lit list_ascii_of_string app]. rewrite tok_first by exact F. rewrite tok_next by assumption.
    destruct (decimal_value (Z.of_nat (length hs)) ltac:(lia)) as (D & _ & DN). rewrite tok_next by (exact DN || apply digits_clean; exact D). symmetry. apply words_strtoks, words_join; [exact NE|]. intros x X. split; [apply HH; exact X|apply hash_clean, HC; exact X]. }
  split; [exact E|]. rewrite E. rewrite <- (used_iff mem p hs 0 M). destruct (used_before md5 mem p 0 hs); split; (reflexivity || discriminate).
Qed.
(** Whatever rows the user had: the password just saved is refused. *)
Theorem saved_is_refused : forall I uid d d' u p hm f rows mem, fit u -> Z.of_nat (length p) < 2 ^ 31 -> 0 < hm -> (forall k, i_put I k = true) -> (forall k, i_mem I k = true) ->
  (forall n, uid = Some n -> 0 <= n) -> d OPASSWD = Some f -> Pwhist_Model.f_data f = text_of rows -> Forall clean rows -> (forall k, mem k = true) ->
  save_old md5 I uid d u (Some p) hm = Ok (PAM_SUCCESS, d') -> check_old md5 true mem d' u p = PAM_AUTHTOK_ERR.
Proof.
  intros I uid d d' u p hm f rows mem F L H P M UD DF DT C MM E. destruct (old_password_saved md5 MD I uid d u p hm f rows F L ltac:(lia) P M UD DF DT C) as (r & d2 & E2 & S & _). rewrite E in E2. injection E2 as <- <-.
  destruct (S eq_refl) as (rows' & -> & C' & _ & FR & EX & _). destruct (EX H) as (x & IX & OX). unfold check_old, Pwhist_Model.put. rewrite streq_refl. cbn [Pwhist_Model.f_data]. rewrite text_lines by exact C'.
  assert (SP : exists a y b, rows' = (a ++ y :: b)%list /\ of_user u y = true /\ forall z, In z a -> of_user u z = false).
  { clear - IX OX. induction rows' as [|z rows' IH]; [destruct IX|]. destruct (of_user u z) eqn:OZ; [exists [], z, rows'; split; [reflexivity|]; split; [exact OZ|intros ? []]|]. destruct IX as [->|IX]; [congruence|]. destruct (IH IX) as (a & y & b & -> & Y & A). exists (z :: a), y, b. split; [reflexivity|]. split; [exact Y|]. intros w [<-|W]; [exact OZ|apply A; exact W]. }
  destruct SP as (a & y & b & -> & OY & A). destruct (FR y ltac:(apply in_or_app; right; left; reflexivity) OY) as (i & n & m & h & -> & I1 & I2 & N1 & N2 & M1 & s & SC & SH). apply Forall_app in C'. destruct C' as [CA CB]. inversion CB as [|? ? CY CB']; subst.
  rewrite map_app. cbn [map]. rewrite find_first; [|exact F|exact CA|exact CY|intros z Z0 Z1; rewrite (A z Z0) in Z1; discriminate|apply is_prefix_iff; eexists; rewrite <- app_assoc; reflexivity].
  rewrite removelast_last. unfold old_passwords. cbn [lit list_ascii_of_string app]. rewrite tok_first by exact F. rewrite tok_next by assumption. rewrite tok_next by assumption.
  assert (IH : In h (strtoks (lit ",") (m ++ h))).
  { destruct (MD p s L SC) as (h' & SH' & _ & HN & HC). rewrite SH in SH'. injection SH' as <-. assert (NS : no_sep (lit ",") h) by (intros c X [<-|[]]; apply (proj2 (proj2 (hash_clean h HC))); exact X).
    clear - M1 HN NS. destruct M1 as [->|(m' & ->)]; [rewrite (words_strtoks (lit ",") ([] ++ h) [h]); [left; reflexivity|apply words_last; [intros c []|exact HN|exact NS]]|].
    rewrite <- app_assoc. change (In h (strtoks (lit ",") (m' ++ ","%char :: h))). pose proof (strtoks_words (lit ",") m') as W. revert W. generalize (strtoks (lit ",") m') as ws. intros ws W.
    assert (G : Str_Facts.words (lit ",") (m' ++ ","%char :: h) (ws ++ [h])); [|rewrite (words_strtoks _ _ _ G); apply in_or_app; right; left; reflexivity].
    induction W as [q Q|q w Q W1 W2|q w x s ws Q W1 W2 X W IHW].
    - replace (q ++ ","%char :: h)%list with ((q ++ lit ",") ++ h)%list by (rewrite <- app_assoc; reflexivity). apply words_last; [|exact HN|exact NS]. intros c X. apply in_app_or in X. destruct X as [X|X]; [apply Q; exact X|exact X].
    - rewrite <- app_assoc. apply words_more; [exact Q|exact W1|exact W2|left; reflexivity|]. apply (words_last (lit ",") [] h); [intros c []|exact HN|exact NS].
    - replace ((q ++ w ++ x :: s) ++ ","%char :: h)%list with (q ++ w ++ x :: s ++ ","%char :: h)%list by (repeat (rewrite <- app_assoc; cbn [app]); reflexivity). cbn [app]. apply words_more; assumption. }
  match goal with |- (if ?b then _ else _) = _ => replace b with true; [reflexivity|symmetry] end. apply used_iff; [exact MM|]. exists h. split; [exact IH|]. right. destruct (MD p s L SC) as (h' & SH' & V & _). congruence.
Qed.
End History.

(** ** Several passwords *)
(** Passwords saved one after the other, each time with success and without errors in between. *)
Inductive saves (md5 : cstr -> cstr -> option cstr) (u : cstr) (hm : Z) : Pwhist_Model.disk -> list cstr -> Pwhist_Model.disk -> Prop :=
| saves_none : forall d, saves md5 u hm d [] d
| saves_more : forall d ps d1 I uid p d2, saves md5 u hm d ps d1 -> Z.of_nat (length p) < 2 ^ 31 -> (forall k, i_put I k = true) -> (forall k, i_mem I k = true) ->
    save_old md5 I uid d1 u (Some p) hm = Ok (PAM_SUCCESS, d2) -> saves md5 u hm d (ps ++ [p]) d2.
Lemma newest_newest : forall n (l : list cstr) h, 0 < n -> newest n (newest n l ++ [h]) = newest n (l ++ [h]).
Proof.
  intros n l h N. unfold newest. rewrite !app_length, skipn_length. cbn [length]. rewrite !skipn_app, skipn_length.
  replace (length l + 1 - Z.to_nat n - length l)%nat with 0%nat by lia. replace (length l - (length l - Z.to_nat n) + 1 - Z.to_nat n - (length l - (length l - Z.to_nat n)))%nat with 0%nat by lia. f_equal.
  destruct (Nat.le_gt_cases (Z.to_nat n) (length l)) as [G|G].
  - replace (length l - (length l - Z.to_nat n) + 1 - Z.to_nat n)%nat with 1%nat by lia. replace (length l + 1 - Z.to_nat n)%nat with (S (length l - Z.to_nat n)) by lia. generalize (length l - Z.to_nat n)%nat as k. clear. intro k. revert l. induction k as [|k IH]; intro l; [reflexivity|]. destruct l as [|a l]; [reflexivity|]. change (skipn 1 (skipn k l) = skipn (S k) l). apply IH.
  - replace (length l - Z.to_nat n)%nat with 0%nat by lia. cbn [skipn]. f_equal. lia.
Qed.
Lemma newest_cong : forall n (a b : list cstr) h, 0 < n -> newest n a = newest n b -> newest n (a ++ [h]) = newest n (b ++ [h]).
Proof. intros n a b h N E. rewrite <- (newest_newest n a), <- (newest_newest n b), E by exact N. reflexivity. Qed.
Lemma newest_id : forall n (l : list cstr), newest n (newest n l) = newest n l.
Proof. intros n l. unfold newest at 1. replace (length (newest n l) - Z.to_nat n)%nat with 0%nat; [reflexivity|]. unfold newest. rewrite skipn_length. lia. Qed.
Lemma newest_tail : forall n (a b : list cstr) h, In h (newest n b) -> In h (newest n (a ++ b)).
Proof.
  intros n a b h I. unfold newest in *. rewrite app_length, skipn_app. apply in_or_app. right. replace (length a + length b - Z.to_nat n - length a)%nat with (length b - Z.to_nat n)%nat by lia. exact I.
Qed.
Lemma forall2_skip : forall (A B : Type) (R : A -> B -> Prop) l m k, Forall2 R l m -> Forall2 R (skipn k l) (skipn k m).
Proof. intros A B R l m k H. revert k. induction H as [|x y l m RX H IH]; intro k; [destruct k; constructor|]. destruct k; [constructor; assumption|]. cbn [skipn]. apply IH. Qed.
(** The last [hm] passwords saved are refused. *)
Theorem last_passwords_refused : forall md5 u hm d hs ps d' mem p, hashing md5 -> history d u hs -> 0 < hm < INT_MAX -> saves md5 u hm d ps d' -> (forall k, mem k = true) ->
  In p (newest hm ps) -> check_old md5 true mem d' u p = PAM_AUTHTOK_ERR.
Proof.
  intros md5 u hm d hs ps d' mem p MD H0 HM S MM IP. assert (G : exists hs' hl, history d' u hs' /\ newest hm hs' = newest hm (hs ++ hl) /\ Forall2 (fun p h => md5 p h = Some h) ps hl).
  { clear IP MM. induction S as [d|d ps d1 I uid q d2 S IH L P M E].
    - exists hs, []. rewrite app_nil_r. split; [exact H0|]. split; [reflexivity|constructor].
    - destruct (IH H0) as (hs' & hl & H1 & EN & F2). destruct (history_saved md5 MD I uid d1 d2 u q hm hs' H1 L HM P M E) as (h & V & H2). exists (newest hm (hs' ++ [h])), (hl ++ [h])%list. split; [exact H2|]. split.
      + rewrite newest_id, app_assoc. apply newest_cong; [lia|exact EN].
      + apply Forall2_app; [exact F2|]. constructor; [exact V|constructor]. }
  destruct G as (hs' & hl & H1 & EN & F2). apply (proj2 (history_check md5 mem d' u hs' p H1 MM)).
  assert (LE : length ps = length hl) by (clear - F2; induction F2; cbn [length]; congruence). unfold newest in IP. apply (forall2_skip _ _ _ _ _ (length ps - Z.to_nat hm)) in F2. revert F2 IP.
  replace (skipn (length ps - Z.to_nat hm) hl) with (newest hm hl) by (unfold newest; rewrite LE; reflexivity). intros F2 IP.
  assert (X : exists h, In h (newest hm hl) /\ md5 p h = Some h).
  { clear - F2 IP. induction F2 as [|x y l m R F2 IH]; [destruct IP|]. destruct IP as [->|IP]; [exists y; split; [left; reflexivity|exact R]|]. destruct (IH IP) as (h & A & B). exists h. split; [right; exact A|exact B]. }
  destruct X as (h & IH & V). exists h. split; [|right; exact V]. apply (in_newest hm). rewrite EN. apply newest_tail. exact IH.
Qed.

(** ** Examples *)
Definition letter (c : ascii) : ascii := if existsb (Ascii.eqb c) alphabet then c else "."%char.
(** A function that shows the password in the hash. *)
Definition plain (p s : cstr) : option cstr := Some (lit "$1$" ++ map letter p)%list.
Example plain_hashing : hashing plain.
Proof.
  intros p s _ _. exists (lit "$1$" ++ map letter p)%list. split; [reflexivity|]. split; [reflexivity|]. split; [discriminate|]. intros c I. cbn in I. destruct I as [<-|[<-|[<-|I]]]; [right; reflexivity|left; cbv; tauto|right; reflexivity|].
  left. apply in_map_iff in I. destruct I as (x & <- & _). unfold letter. destruct (existsb (Ascii.eqb x) alphabet) eqn:E; [|cbv; tauto]. apply existsb_exists in E. destruct E as (y & Y & E). apply Ascii.eqb_eq in E. subst y. exact Y.
Qed.
Definition all_well : io := mkIo true true true true true true (fun _ => true) true true true true (lit "/etc/security/nopasswd.XXXXXX") (fun _ _ => 0) (fun _ => true).
Definition opw (rows : list cstr) : Pwhist_Model.disk := fun q => if streq q OPASSWD then Some (Pwhist_Model.mkFile (text_of rows) 384 0 0) else None.
Definition shown (d : Pwhist_Model.disk) : list ascii := match d OPASSWD with Some f => Pwhist_Model.f_data f | None => [] end.
Definition saving (I : io) (uid : option Z) (d : Pwhist_Model.disk) (u : cstr) (p : string) (hm : Z) : res (Z * list ascii) :=
  bind (save_old plain I uid d u (Some (lit p)) hm) (fun '(r, d') => Ok (r, shown d')).
Example saving_example :
  let d := opw [lit "ann:1:1:$1$x"; lit "bob:1001:2:$1$one,$1$two"; lit "cat:3:0"] in
  saving all_well (Some 1001) d (lit "bob") "three" 3 = Ok (0, text_of [lit "ann:1:1:$1$x"; lit "bob:1001:3:$1$one,$1$two,$1$three"; lit "cat:3:0"]) /\
  saving all_well (Some 1001) d (lit "bob") "three" 2 = Ok (0, text_of [lit "ann:1:1:$1$x"; lit "bob:1001:2:$1$two,$1$three"; lit "cat:3:0"]) /\
  saving all_well (Some 1001) d (lit "bob") "three" 1 = Ok (0, text_of [lit "ann:1:1:$1$x"; lit "bob:1001:1:$1$three"; lit "cat:3:0"]) /\
  saving all_well (Some 1001) d (lit "bob") "three" 0 = Ok (0, text_of [lit "ann:1:1:$1$x"; lit "cat:3:0"]) /\
  saving all_well (Some 4) d (lit "dan") "three" 2 = Ok (0, text_of [lit "ann:1:1:$1$x"; lit "bob:1001:2:$1$one,$1$two"; lit "cat:3:0"; lit "dan:4:1:$1$three"]).
Proof. vm_compute. repeat split. Qed.
Example bare_name_replaced_example :
  saving all_well (Some 2) (fun q => if streq q OPASSWD then Some (Pwhist_Model.mkFile (text_of [lit "ann:1:1:$1$x"] ++ lit "bob") 384 0 0) else None) (lit "bob") "one" 3 = Ok (0, text_of [lit "ann:1:1:$1$x"; lit "bob:2:1:$1$one"]).
Proof. vm_compute. reflexivity. Qed.
Example history_example : history (opw [lit "ann:1:1:$1$x"; lit "bob:1001:2:$1$one,$1$two"; lit "cat:3:0"]) (lit "bob") [lit "$1$one"; lit "$1$two"].
Proof.
  assert (CL : forall s, existsb (fun c => Ascii.eqb c c_nl || Ascii.eqb c NUL) s = false -> clean s).
  { intros s E. split; intro I; (assert (X : existsb (fun c => Ascii.eqb c c_nl || Ascii.eqb c NUL) s = true) by (apply existsb_exists; eexists; split; [exact I|reflexivity])); congruence. }
  split; [split; [discriminate|split; [cbn; intuition discriminate|apply CL; reflexivity]]|]. split; [discriminate|]. split; [reflexivity|]. split.
  - assert (HC : forall h, forallb (fun c => existsb (Ascii.eqb c) ("$"%char :: alphabet)) h = true -> hash_chars h).
    { intros h E c I. rewrite forallb_forall in E. apply E in I. apply existsb_exists in I. destruct I as (y & [<-|Y] & X); apply Ascii.eqb_eq in X; subst; auto. }
    intros h [<-|[<-|[]]]; (split; [discriminate|apply HC; reflexivity]).
  - eexists _, [lit "ann:1:1:$1$x"], [lit "cat:3:0"], (lit "1001"). split; [reflexivity|]. split; [reflexivity|]. split; [constructor; [apply CL; reflexivity|constructor]|]. split; [constructor; [apply CL; reflexivity|constructor]|].
    split; [intros r [<-|[<-|[]]]; reflexivity|]. split; [discriminate|]. split; [cbn; intuition discriminate|apply CL; reflexivity].
Qed.
Example refused_example :
  let d := opw [lit "ann:1:1:$1$x"; lit "bob:1001:2:$1$one,$1$two"; lit "cat:3:0"] in
  check_old plain true (fun _ => true) d (lit "bob") (lit "two") = PAM_AUTHTOK_ERR /\ check_old plain true (fun _ => true) d (lit "bob") (lit "four") = PAM_SUCCESS /\
  check_old plain true (fun _ => true) d (lit "ann") (lit "two") = PAM_SUCCESS /\ check_old plain false (fun _ => true) d (lit "bob") (lit "four") = PAM_ABORT.
Proof. vm_compute. repeat split. Qed.

(** ** What does not hold *)
(** A write that fails can be reported as success; the rows that followed are gone. *)
Theorem failed_write_reported_refuted : exists md5 I uid d d' u p hm, hashing md5 /\ save_old md5 I uid d u (Some p) hm = Ok (PAM_SUCCESS, d') /\ 0 < hm /\
  i_put I 1 = false /\ shown d = text_of [lit "ann:1:1:$1$x"; lit "cat:3:1:$1$y"; lit "dan:4:1:$1$z"] /\ shown d' = text_of [lit "ann:1:1:$1$x"; lit "bob:2:1:$1$one"].
Proof.
  exists plain, (mkIo true true true true true true (fun k => negb (Nat.eqb k 1)) true true true true (lit "/etc/security/nopasswd.XXXXXX") (fun _ _ => 0) (fun _ => true)), (Some 2), (opw [lit "ann:1:1:$1$x"; lit "cat:3:1:$1$y"; lit "dan:4:1:$1$z"]).
  eexists. exists (lit "bob"), (lit "one"), 3. split; [exact plain_hashing|]. split; [reflexivity|]. vm_compute. repeat split.
Qed.
(** Without a newline at the end of the file the new row is glued to the row of somebody else; and the user's own last hash loses a character. *)
Theorem unfinished_file_refuted : exists md5 d1 d2, hashing md5 /\
  shown d1 = (text_of [lit "ann:1:1:$1$x"] ++ lit "cat:3:1:$1$y")%list /\ (exists d', save_old md5 all_well (Some 2) d1 (lit "bob") (Some (lit "one")) 3 = Ok (PAM_SUCCESS, d') /\
    shown d' = text_of [lit "ann:1:1:$1$x"; lit "cat:3:1:$1$ybob:2:1:$1$one"] /\ check_old md5 true (fun _ => true) d' (lit "bob") (lit "one") = PAM_SUCCESS) /\
  shown d2 = lit "bob:2:1:$1$one" /\ check_old md5 true (fun _ => true) d2 (lit "bob") (lit "one") = PAM_SUCCESS /\
  exists d', save_old md5 all_well (Some 2) d2 (lit "bob") (Some (lit "two")) 3 = Ok (PAM_SUCCESS, d') /\ shown d' = text_of [lit "bob:2:2:$1$on,$1$two"].
Proof.
  set (disk := fun t q => if streq q OPASSWD then Some (Pwhist_Model.mkFile t 384 0 0) else None). exists plain, (disk (text_of [lit "ann:1:1:$1$x"] ++ lit "cat:3:1:$1$y")%list), (disk (lit "bob:2:1:$1$one")).
  split; [exact plain_hashing|]. split; [reflexivity|]. split; [eexists; split; [reflexivity|vm_compute; split; reflexivity]|]. split; [reflexivity|]. split; [reflexivity|]. eexists; split; [reflexivity|vm_compute; reflexivity].
Qed.
(** With nothing to remember, a row is removed and added in turn. *)
Theorem remember_none_refuted : exists d d1 d2, save_old plain all_well (Some 2) d (lit "bob") (Some (lit "one")) 0 = Ok (PAM_SUCCESS, d1) /\ shown d1 = text_of [lit "bob:2:1:$1$one"] /\
  save_old plain all_well (Some 2) d1 (lit "bob") (Some (lit "two")) 0 = Ok (PAM_SUCCESS, d2) /\ shown d2 = [].
Proof. exists (opw []). do 2 eexists. split; [reflexivity|]. split; [vm_compute; reflexivity|]. split; [reflexivity|vm_compute; reflexivity]. Qed.
(** A row without all its fields hides nothing: it is dropped, and a complete row before it then gets a second row beside it. *)
Theorem short_row_refuted : exists d d', save_old plain all_well (Some 2) d (lit "bob") (Some (lit "two")) 3 = Ok (PAM_SUCCESS, d') /\
  shown d = text_of [lit "bob:2:1:$1$one"; lit "bob:2"] /\ shown d' = text_of [lit "bob:2:2:$1$one,$1$two"; lit "bob:2:1:$1$two"].
Proof. exists (opw [lit "bob:2:1:$1$one"; lit "bob:2"]). eexists. split; [reflexivity|]. vm_compute. split; reflexivity. Qed.
(** When the descriptor of the temporary file cannot be made a stream, the file stays. *)
Theorem temporary_file_stays_refuted : exists I d d', save_old plain I (Some 2) d (lit "bob") (Some (lit "two")) 3 = Ok (PAM_AUTHTOK_ERR, d') /\ d (i_tmp I) = None /\ d' (i_tmp I) <> None.
Proof.
  exists (mkIo true false true true true true (fun _ => true) true true true true (lit "/etc/security/nopasswd.abcdef") (fun _ _ => 0) (fun _ => true)), (opw []). eexists. split; [reflexivity|]. split; [reflexivity|vm_compute; discriminate].
Qed.

Print Assumptions md5_hashing.
Print Assumptions old_password_saved.
Print Assumptions history_saved.
Print Assumptions history_begins.
Print Assumptions bare_name_replaced.
Print Assumptions history_check.
Print Assumptions saved_is_refused.
Print Assumptions last_passwords_refused.
