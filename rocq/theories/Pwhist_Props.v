(** C68, C69, C70: pam_pwhistory, the history of passwords. *)
From Coq Require Import String Ascii List Arith ZArith Bool Lia.
From Verif Require Import Base Num_Model Str_Model Str_Facts Opt_Model Opt_Facts Umask_Model.
From Verif Require Umask_Props.
From Verif Require Import Pwhist_Model Pwhist_Facts.
Import ListNotations.
Local Open Scope Z_scope.

(** ** The check *)

(** [h] is a hash of the password [np]. *)
Definition hash_of (E : env) (np h : cstr) : Prop := h <> [] /\ e_crypt E np h = Some h.

Lemma compare_password_zero : forall E n np h, compare_password E n np h = 0 -> e_crypt E np h <> Some h.
Proof.
  intros E n np h H. unfold compare_password in H. destruct (e_calloc E n); cbn [negb] in H; [|discriminate]. destruct (e_crypt E np h) as [o|]; [|discriminate].
  destruct (streq o h) eqn:S; [discriminate|]. intro X. injection X as ->. rewrite streq_refl in S. discriminate.
Qed.
Lemma compare_password_nonzero : forall E n np h, e_calloc E n = true -> compare_password E n np h <> 0 -> e_crypt E np h = Some h.
Proof.
  intros E n np h C H. unfold compare_password in H. rewrite C in H. cbn [negb] in H. destruct (e_crypt E np h) as [o|]; [|congruence].
  destruct (streq o h) eqn:S; [apply streq_eq in S; congruence|congruence].
Qed.
Lemma compare_all_cases : forall E np hs n, compare_all E np n hs = PAM_SUCCESS /\ (forall h, In h hs -> ~ hash_of E np h) \/
  compare_all E np n hs = PAM_AUTHTOK_ERR /\ ((forall k, e_calloc E k = true) -> exists h, In h hs /\ hash_of E np h).
Proof.
  intros E np hs. induction hs as [|h hs IH]; intro n; cbn [compare_all]; [left; split; [reflexivity|intros h []]|].
  destruct h as [|c h].
  - destruct (IH n) as [(E1 & A)|(E1 & A)]; [left|right]; (split; [exact E1|]).
    + intros x [<-|I]; [intros (X & _); congruence|apply A; exact I].
    + intro C. destruct (A C) as (x & I & X). exists x. split; [right; exact I|exact X].
  - destruct (Z.eqb_spec (compare_password E n np (c :: h)) 0) as [Z0|NZ].
    + apply compare_password_zero in Z0. destruct (IH (S n)) as [(E1 & A)|(E1 & A)]; [left|right]; (split; [exact E1|]).
      * intros x [<-|I]; [intros (_ & X); congruence|apply A; exact I].
      * intro C. destruct (A C) as (x & I & X). exists x. split; [right; exact I|exact X].
    + right. split; [reflexivity|]. intro C. exists (c :: h). split; [left; reflexivity|]. split; [discriminate|]. eapply compare_password_nonzero; [apply C|exact NZ].
Qed.

Lemma check_old_cases : forall E d user np name f, ~ In ":"%char user -> d (opasswd_file name) = Some f -> ~ In NUL (f_data f) -> e_fopen E = true ->
  check_old_pass E d user np name = PAM_SUCCESS /\ (forall hs h, recorded user (f_data f) hs -> In h hs -> ~ hash_of E np h) \/
  check_old_pass E d user np name = PAM_AUTHTOK_ERR /\ ((forall k, e_calloc E k = true) -> exists hs h, recorded user (f_data f) hs /\ In h hs /\ hash_of E np h).
Proof.
  intros E d user np name f NU D Z O. unfold check_old_pass. rewrite D, O. cbn [negb]. pose proof (find_recorded user (f_data f)) as F.
  destruct (find_entry user (lines_of (f_data f))) as [[u i old]|] eqn:FE.
  - destruct old as [old|].
    + destruct (compare_all_cases E np (fields ","%char old) 0) as [(E1 & A)|(E1 & A)]; [left|right]; (split; [exact E1|]).
      * intros hs h R I. apply F in R; [|assumption..]. destruct R as (e & X & <-). injection X as <-. unfold olds in I. cbn [o_old] in I. destruct old; [destruct I|apply A; exact I].
      * intro C. destruct (A C) as (h & I & H). exists (olds (mkOpwd u i (Some old))), h. split; [apply F; [assumption..|]; eexists; split; reflexivity|]. split; [|exact H].
        unfold olds. cbn [o_old]. destruct old; [|exact I]. destruct I as [<-|[]]. destruct H as (H & _). congruence.
    + left. split; [reflexivity|]. intros hs h R I. apply F in R; [|assumption..]. destruct R as (e & X & <-). injection X as <-. destruct I.
  - left. split; [reflexivity|]. intros hs h R I. apply F in R; [|assumption..]. destruct R as (e & X & _). discriminate.
Qed.

(** A password that is accepted is none of those recorded for the user, whatever memory there is. *)
Theorem accepted_not_recorded : forall E d user np name f hs h, ~ In ":"%char user -> d (opasswd_file name) = Some f -> ~ In NUL (f_data f) -> e_fopen E = true ->
  check_old_pass E d user np name = PAM_SUCCESS -> recorded user (f_data f) hs -> In h hs -> ~ hash_of E np h.
Proof.
  intros E d user np name f hs h NU D Z O S R I. destruct (check_old_cases E d user np name f NU D Z O) as [(_ & A)|(X & _)]; [apply (A hs); assumption|rewrite S in X; discriminate].
Qed.
(** With enough memory exactly those are refused. *)
Theorem recorded_refused : forall E d user np name f, ~ In ":"%char user -> d (opasswd_file name) = Some f -> ~ In NUL (f_data f) -> e_fopen E = true -> (forall k, e_calloc E k = true) ->
  (check_old_pass E d user np name = PAM_AUTHTOK_ERR <-> exists hs h, recorded user (f_data f) hs /\ In h hs /\ hash_of E np h) /\
  (check_old_pass E d user np name = PAM_SUCCESS <-> ~ exists hs h, recorded user (f_data f) hs /\ In h hs /\ hash_of E np h).
Proof.
  intros E d user np name f NU D Z O C. destruct (check_old_cases E d user np name f NU D Z O) as [(S & A)|(S & A)]; rewrite S; split; split; intro H; try discriminate; try reflexivity.
  - destruct H as (hs & h & R & I & X). destruct (A hs h R I X).
  - intros (hs & h & R & I & X). destruct (A hs h R I X).
  - exact (A C).
  - destruct (H (A C)).
Qed.

(** An example: names of users as hashes of passwords. *)
Definition ex_pw (u : cstr) : option pwent := if streq u (lit "ann") then Some (mkPwent (lit "ann") (lit "x") 1000) else if streq u (lit "bob") then Some (mkPwent (lit "bob") (lit "hb") 1001) else None.
Definition ex_sp (u : cstr) : option (option cstr) := Some (Some (lit "h3")).
Definition ex_crypt (p h : cstr) : option cstr := Some ("h"%char :: p).
Definition ex_env := mkEnv ex_pw ex_sp ex_crypt (fun _ => true) true true true true true true true (fun _ => true) (fun _ => true) (fun _ => true) true true true true true true true true.
Definition ex_text : list ascii := (lit "bob:1001:1:hb" ++ c_nl :: lit "ann:1000:2:h1,h2" ++ [c_nl])%list.
Definition ex_disk : disk := fun p => if streq p (lit "/etc/security/opasswd") then Some (mkFile ex_text 384 0 0) else None.
Lemma ex_entry : entry_of (lit "ann") (lit "ann:1000:2:h1,h2") (lit "1000") [lit "h1"; lit "h2"].
Proof. apply parse_entry_iff; [intros [X|[X|[X|[]]]]; discriminate|]. split; [reflexivity|]. eexists. split; [reflexivity|]. auto. Qed.
Lemma no_in : forall (c : ascii) s, existsb (Ascii.eqb c) s = false -> ~ In c s.
Proof. intros c s H I. assert (existsb (Ascii.eqb c) s = true) by (apply existsb_exists; exists c; split; [exact I|apply Ascii.eqb_refl]). congruence. Qed.
Lemma ex_recorded : recorded (lit "ann") ex_text [lit "h1"; lit "h2"].
Proof. apply find_recorded; [apply no_in; reflexivity..|]. eexists. split; [vm_compute; reflexivity|reflexivity]. Qed.
Example accepted_not_recorded_example : check_old_pass ex_env ex_disk (lit "ann") (lit "3") None = PAM_SUCCESS /\ ~ In ":"%char (lit "ann") /\ recorded (lit "ann") ex_text [lit "h1"; lit "h2"].
Proof. split; [reflexivity|]. split; [apply no_in; reflexivity|exact ex_recorded]. Qed.
Example recorded_refused_example : check_old_pass ex_env ex_disk (lit "ann") (lit "2") None = PAM_AUTHTOK_ERR /\ hash_of ex_env (lit "2") (lit "h2").
Proof. split; [reflexivity|]. split; [discriminate|reflexivity]. Qed.

(** A history that is there but cannot be opened refuses nothing. *)
Theorem unreadable_refuses_refuted : exists E d user np f hs h, d (opasswd_file None) = Some f /\ (forall k, e_calloc E k = true) /\
  recorded user (f_data f) hs /\ In h hs /\ hash_of E np h /\ check_old_pass E d user np None = PAM_SUCCESS.
Proof.
  exists (mkEnv ex_pw ex_sp ex_crypt (fun _ => true) false true true true true true true (fun _ => true) (fun _ => true) (fun _ => true) true true true true true true true true),
    ex_disk, (lit "ann"), (lit "2"), (mkFile ex_text 384 0 0), [lit "h1"; lit "h2"], (lit "h2").
  split; [reflexivity|]. split; [reflexivity|]. split; [exact ex_recorded|]. split; [right; left; reflexivity|]. split; [split; [discriminate|reflexivity]|reflexivity].
Qed.

(** ** Saving *)

(** What becomes of the hashes [hs] when the current one is [cur] and [n] are kept: nothing if [cur] is the last and there are at most [n], else
    [cur] is added at the end and hashes are dropped at the start until at most [n] are left. *)
Definition update (n : Z) (hs : list cstr) (cur : cstr) (hs' : list cstr) : Prop :=
  ((exists a, hs = (a ++ [cur])%list) /\ Z.of_nat (length hs) <= n /\ hs' = hs) \/
  (~ ((exists a, hs = (a ++ [cur])%list) /\ Z.of_nat (length hs) <= n) /\ exists dropped, (hs ++ [cur] = dropped ++ hs')%list /\ Z.of_nat (length hs') = Z.min n (Z.of_nat (length hs) + 1)).
(** A hash that a field can hold. *)
Definition plain (s : cstr) : Prop := ~ In c_nl s /\ ~ In NUL s /\ ~ In ":"%char s /\ ~ In ","%char s.

Lemma strchr_join : forall a b t, ~ In ","%char a -> strchr ","%char (a ++ ","%char :: t)%list = Some (","%char :: t) /\ (b = a -> strchr ","%char b = None).
Proof.
  intros a b t N. split.
  - induction a as [|x a IH]; [reflexivity|]. cbn [app strchr]. destruct (Ascii.eqb_spec x ","%char) as [->|NE]; [exfalso; apply N; left; reflexivity|]. apply IH. intro I. apply N. right. exact I.
  - intros ->. induction a as [|x a IH]; [reflexivity|]. cbn [strchr]. destruct (Ascii.eqb_spec x ","%char) as [->|NE]; [exfalso; apply N; left; reflexivity|]. apply IH. intro I. apply N. right. exact I.
Qed.
Lemma forget_stop : forall fuel n count old, ~ (n < count /\ 1 < count) -> forget fuel n count old = (count, old).
Proof.
  intros [|fuel] n count old H; [reflexivity|]. cbn [forget]. destruct (Z.ltb_spec n count); destruct (Z.ltb_spec 1 count); try reflexivity. lia.
Qed.
Lemma forget_spec : forall hs fuel n, hs <> [] -> (forall h, In h hs -> ~ In ","%char h) -> 1 <= n -> (length hs < fuel)%nat ->
  exists m old, forget fuel n (Z.of_nat (length hs) + 1) (join ","%char hs) = (m, old) /\ m = Z.min n (Z.of_nat (length hs) + 1) /\
    (m <> 1 -> exists a b, hs = (a ++ b)%list /\ b <> [] /\ old = join ","%char b /\ Z.of_nat (length b) + 1 = m).
Proof.
  induction hs as [|h hs IH]; intros fuel n NE A N F; [congruence|]. clear NE. destruct fuel as [|fuel]; [lia|].
  destruct (Z_le_dec (Z.of_nat (length (h :: hs)) + 1) n) as [L|L].
  { rewrite forget_stop by lia. eexists. eexists. split; [reflexivity|]. split; [lia|]. intros _. exists [], (h :: hs). split; [reflexivity|]. split; [discriminate|]. split; [reflexivity|lia]. }
  cbn [forget]. destruct (Z.ltb_spec n (Z.of_nat (length (h :: hs)) + 1)); [|lia]. destruct (Z.ltb_spec 1 (Z.of_nat (length (h :: hs)) + 1)); [|cbn [length] in *; lia]. cbn [andb].
  destruct hs as [|h2 hs].
  - cbn [join]. destruct (strchr_join h h [] (A h (or_introl eq_refl))) as (_ & X). rewrite (X eq_refl). cbn [length]. rewrite forget_stop by lia. eexists. eexists. split; [reflexivity|]. cbn [length] in *. split; lia.
  - rewrite join_cons by discriminate. destruct (strchr_join h h (join ","%char (h2 :: hs)) (A h (or_introl eq_refl))) as (X & _). rewrite X.
    destruct (IH fuel n) as (m & old & E & M & B); [discriminate|intros x I; apply A; right; exact I|exact N|cbn [length] in *; lia|].
    replace (Z.of_nat (length (h :: h2 :: hs)) + 1 - 1) with (Z.of_nat (length (h2 :: hs)) + 1) by (cbn [length]; lia). rewrite E. exists m, old. split; [reflexivity|].
    split; [cbn [length] in *; lia|]. intro M1. destruct (B M1) as (a & b & E2 & NB & E3 & E4). exists (h :: a), b. rewrite E2. auto.
Qed.

Lemma last_snoc : forall (hs : list cstr) cur, hs <> [] -> (last hs [] = cur <-> exists a, hs = (a ++ [cur])%list).
Proof.
  intros hs cur N. split.
  - intros <-. exists (removelast hs). apply app_removelast_last. exact N.
  - intros (a & ->). apply last_last.
Qed.

Lemma decimal_count : forall n, 0 <= n -> count_ok (decimal n) /\ ~ In ":"%char (decimal n) /\ ~ In c_nl (decimal n) /\ ~ In NUL (decimal n).
Proof.
  intros n P. destruct (decimal_value n P) as (D & V & NE). rewrite forallb_forall in D. split; [|split; [|split]].
  - right. exists false, n. exists [], [], (decimal n). rewrite app_nil_r. split; [reflexivity|]. split; [reflexivity|]. split; [right; auto|].
    assert (H : forall c, In c (decimal n) -> hex_val c = digit_val c) by (intros c I; unfold hex_val; rewrite (D c I); reflexivity).
    assert (R : forall c, isdigit c = true -> digit_val c < 10). { intros c X. unfold isdigit in X. apply andb_true_iff in X. destruct X as (X1 & X2). apply Nat.leb_le in X2. unfold digit_val. lia. }
    split; [|left; reflexivity]. split; [exact NE|]. split; [intros c I; rewrite (H c I); apply R; apply D; exact I|].
    assert (G : forall s acc, (forall c, In c s -> hex_val c = digit_val c) -> fold_left (fun a c => a * 10 + hex_val c) s acc = fold_left (fun v c => v * 10 + digit_val c) s acc).
    { induction s as [|c s IH]; intros acc X; [reflexivity|]. cbn [fold_left]. rewrite (X c (or_introl eq_refl)). apply IH. intros y I. apply X. right. exact I. }
    rewrite G by exact H. symmetry. exact V.
  - intro I. apply D in I. discriminate.
  - intro I. apply D in I. discriminate.
  - intro I. apply D in I. discriminate.
Qed.

(** A line of the user that is an entry. *)
Lemma olds_nonzero : forall e, (Z.of_nat (length (olds e)) =? 0) = true <-> olds e = [].
Proof. intro e. rewrite Z.eqb_eq. destruct (olds e); split; intro H; try reflexivity; discriminate. Qed.
Lemma olds_comma : forall e h, In h (olds e) -> ~ In ","%char h.
Proof. intros e h I. unfold olds in I. destruct (o_old e) as [[|c s]|]; [destruct I| |destruct I]. destruct (join_fld ","%char (c :: s)) as (_ & A). apply A. exact I. Qed.
Lemma olds_join : forall e, olds e <> [] -> o_old e = Some (join ","%char (olds e)).
Proof. intros e N. unfold olds in *. destruct (o_old e) as [[|c s]|]; [congruence| |congruence]. destruct (join_fld ","%char (c :: s)) as (J & _). congruence. Qed.
Lemma in_join : forall c x ws, In x (join c ws) -> x = c \/ exists w, In w ws /\ In x w.
Proof.
  intros c x ws. induction ws as [|w ws IH]; [intros []|]. intro I. destruct ws as [|v ws].
  - cbn [join] in I. right. exists w. split; [left; reflexivity|exact I].
  - rewrite join_cons in I by discriminate. apply in_app_or in I. destruct I as [I|[<-|I]]; [right; exists w; split; [left; reflexivity|exact I]|left; reflexivity|].
    destruct (IH I) as [->|(w' & I1 & I2)]; [left; reflexivity|right; exists w'; split; [right; exact I1|exact I2]].
Qed.
Lemma join_in : forall c x ws w, In w ws -> In x w -> In x (join c ws).
Proof.
  intros c x ws. induction ws as [|v ws IH]; intros w I X; [destruct I|]. destruct ws as [|u ws].
  - destruct I as [<-|[]]. exact X.
  - rewrite join_cons by discriminate. apply in_or_app. destruct I as [<-|I]; [left; exact X|right; right; eapply IH; eassumption].
Qed.
Lemma join_snoc : forall c b w, b <> [] -> join c (b ++ [w]) = (join c b ++ c :: w)%list.
Proof.
  intros c b w. induction b as [|x b IH]; intro N; [congruence|]. destruct b as [|y b]; [reflexivity|].
  change ((x :: y :: b) ++ [w])%list with (x :: (y :: b) ++ [w])%list. rewrite join_cons by (destruct b; discriminate). rewrite IH by discriminate. rewrite (join_cons c x (y :: b)) by discriminate. rewrite <- app_assoc. reflexivity.
Qed.

Lemma new_entry_spec : forall user l e n cur, ~ In ":"%char user -> ~ In c_nl l -> ~ In NUL l -> own_line user l = true -> parse_entry l = Some e -> o_user e = user -> 1 <= n -> plain cur -> cur <> [] ->
  match new_entry e n cur with
  | None => update n (olds e) cur (olds e)
  | Some out => exists l' hs', out = (l' ++ [c_nl])%list /\ ~ In c_nl l' /\ ~ In NUL l' /\ update n (olds e) cur hs' /\ entry_of user l' (o_uid e) hs'
  end.
Proof.
  intros user l e n cur NU NL NZ OW P U N (C1 & C2 & C3 & C4) NE. unfold new_entry. fold (olds e).
  assert (EN : entry_of user l (o_uid e) (olds e)) by (apply parse_entry_iff; [exact NU|]; split; [exact OW|]; exists e; auto).
  destruct EN as (cnt & rest & EL & NI & NC & CO & RR).
  assert (OLD : forall x h, In h (olds e) -> In x h -> In x l /\ x <> ":"%char).
  { intros x h I X. destruct RR as [(_ & R)|(old & more & R & NOC & _ & LS)]; [rewrite R in I; destruct I|]. destruct LS as [(_ & LS)|(_ & _ & LS & _)]; [rewrite LS in I; destruct I|].
    assert (Y : In x old) by (rewrite LS; eapply join_in; eassumption). split; [|intros ->; contradiction]. rewrite EL, R. apply in_or_app. right. right. apply in_or_app. right. right. apply in_or_app. right. right. apply in_or_app. left. exact Y. }
  assert (IU : forall x, In x user \/ In x (o_uid e) -> In x l).
  { intros x X. rewrite EL. apply in_or_app. destruct X as [X|X]; [left; exact X|right; right; apply in_or_app; left; exact X]. }
  destruct (negb (Z.of_nat (length (olds e)) =? 0) && streq (last (olds e) []) cur && (Z.of_nat (length (olds e)) <=? n)) eqn:K.
  { apply andb_true_iff in K. destruct K as (K & K3). apply andb_true_iff in K. destruct K as (K1 & K2). apply Z.leb_le in K3. apply streq_eq in K2. left. split; [|auto].
    apply last_snoc; [|exact K2]. intro X. apply olds_nonzero in X. rewrite X in K1. discriminate. }
  assert (NK : ~ ((exists a, olds e = (a ++ [cur])%list) /\ Z.of_nat (length (olds e)) <= n)).
  { intros (X & L). assert (N0 : olds e <> []) by (destruct X as (a & ->); destruct a; discriminate). apply last_snoc in X; [|exact N0]. rewrite X, streq_refl in K.
    destruct (Z.leb_spec (Z.of_nat (length (olds e))) n); [|lia]. destruct (Z.of_nat (length (olds e)) =? 0) eqn:Z0; [apply olds_nonzero in Z0; congruence|]. discriminate. }
  assert (OUT : forall b dropped m, (olds e ++ [cur] = dropped ++ b ++ [cur])%list -> m = Z.of_nat (length b) + 1 -> m = Z.min n (Z.of_nat (length (olds e)) + 1) ->
    exists l' hs', (o_user e ++ ":"%char :: o_uid e ++ ":"%char :: decimal m ++ ":"%char :: (if m =? 1 then cur else join ","%char b ++ ","%char :: cur) ++ [c_nl])%list = (l' ++ [c_nl])%list /\
      ~ In c_nl l' /\ ~ In NUL l' /\ update n (olds e) cur hs' /\ entry_of user l' (o_uid e) hs').
  { intros b dropped m D M1 M2. assert (SUB : forall h, In h b -> In h (olds e)).
    { intros h I. assert (X : olds e = (dropped ++ b)%list) by (rewrite app_assoc in D; apply app_inj_tail in D; tauto). rewrite X. apply in_or_app. right. exact I. }
    assert (J : (if m =? 1 then cur else join ","%char b ++ ","%char :: cur)%list = join ","%char (b ++ [cur])).
    { destruct b as [|x b]; [subst m; reflexivity|]. destruct (Z.eqb_spec m 1); [cbn [length] in *; lia|]. symmetry. apply join_snoc. discriminate. }
    rewrite U. destruct (decimal_count m ltac:(lia)) as (DC & DN & DL & DZ).
    exists (user ++ ":"%char :: o_uid e ++ ":"%char :: decimal m ++ ":"%char :: join ","%char (b ++ [cur]))%list, (b ++ [cur])%list.
    assert (GOOD : forall x, In x (join ","%char (b ++ [cur])) -> x <> ":"%char /\ x <> c_nl /\ x <> NUL).
    { intros x I. apply in_join in I. destruct I as [->|(w & I & X)]; [repeat split; discriminate|]. apply in_app_or in I. destruct I as [I|[<-|[]]].
      - destruct (OLD x w (SUB w I) X) as (Y1 & Y2). repeat split; [exact Y2|intros ->; contradiction|intros ->; contradiction].
      - repeat split; intros ->; contradiction. }
    assert (ALL : forall x, In x (user ++ ":"%char :: o_uid e ++ ":"%char :: decimal m ++ ":"%char :: join ","%char (b ++ [cur]))%list -> x <> c_nl /\ x <> NUL).
    { intros x I. apply in_app_or in I. destruct I as [I|[<-|I]]; [|split; discriminate|].
      { assert (In x l) by (apply IU; left; exact I). split; intros ->; contradiction. }
      apply in_app_or in I. destruct I as [I|[<-|I]]; [|split; discriminate|].
      { assert (In x l) by (apply IU; right; exact I). split; intros ->; contradiction. }
      apply in_app_or in I. destruct I as [I|[<-|I]]; [split; intros ->; contradiction|split; discriminate|]. apply GOOD in I. tauto. }
    split; [rewrite <- J; repeat (rewrite <- ?app_assoc; cbn [app]); reflexivity|]. split; [intro I; apply ALL in I; tauto|]. split; [intro I; apply ALL in I; tauto|]. split.
    - right. split; [exact NK|]. exists dropped. split; [exact D|]. rewrite app_length. cbn [length]. lia.
    - exists (decimal m), (":"%char :: join ","%char (b ++ [cur])). split; [reflexivity|]. split; [exact NI|]. split; [exact DN|]. split; [exact DC|]. right.
      exists (join ","%char (b ++ [cur])), []. rewrite app_nil_r. split; [reflexivity|]. split; [intro I; apply GOOD in I; tauto|]. split; [left; reflexivity|]. right.
      split; [|split; [destruct b; discriminate|split; [reflexivity|]]].
      + destruct b as [|x b]; [exact NE|]. rewrite join_snoc by discriminate. destruct (join ","%char (x :: b)); discriminate.
      + intros h I. apply in_app_or in I. destruct I as [I|[<-|[]]]; [apply (olds_comma e); apply SUB; exact I|exact C4]. }
  destruct (olds e) as [|h0 hs0] eqn:OE.
  - rewrite forget_stop by (cbn [length]; lia). apply (OUT [] []); [reflexivity|cbn [length]; lia|cbn [length]; lia].
  - rewrite <- OE in *. assert (NO : olds e <> []) by congruence. rewrite (olds_join e NO).
    assert (LT : (length (olds e) < Z.to_nat (Z.of_nat (length (olds e)) + 1))%nat) by (clear; set (k := length (olds e)); lia).
    destruct (forget_spec (olds e) (Z.to_nat (Z.of_nat (length (olds e)) + 1)) n NO (olds_comma e) N LT) as (m & old & F & M & B).
    match goal with |- context [forget ?a ?b ?c ?d] => assert (F' : forget a b c d = (m, old)) by exact F end. rewrite F'.
    destruct (Z.eq_dec m 1) as [->|M1].
    + specialize (OUT [] (olds e) 1 eq_refl eq_refl M). cbn [Z.eqb] in OUT |- *. exact OUT.
    + destruct (B M1) as (a & b & E1 & NB & E2 & E3). rewrite E2. apply (OUT b a); [rewrite E1, <- app_assoc; reflexivity|symmetry; exact E3|exact M].
Qed.

(** ** The rows after saving *)

Inductive copied (user : cstr) (n : Z) (cur : cstr) : list cstr -> list cstr -> bool -> Prop :=
| cp_nil : copied user n cur [] [] false
| cp_other : forall l ls ls' f, (forall x, l <> (user ++ ":"%char :: x)%list) -> copied user n cur ls ls' f -> copied user n cur (l :: ls) (l :: ls') f
| cp_drop : forall l ls ls' f x, l = (user ++ ":"%char :: x)%list -> (forall uid hs, ~ entry_of user l uid hs) -> copied user n cur ls ls' f -> copied user n cur (l :: ls) ls' f
| cp_entry : forall l l' uid hs hs' ls ls' f, entry_of user l uid hs -> update n hs cur hs' -> entry_of user l' uid hs' -> copied user n cur ls ls' f -> copied user n cur (l :: ls) (l' :: ls') true.

Definition text_of (ls : list cstr) : list ascii := concat (map (fun l => l ++ [c_nl])%list ls).
(** Every row ends in a newline. *)
Definition complete (t : list ascii) : Prop := t = [] \/ last t NUL = c_nl.
Definition clean_row (l : cstr) : Prop := ~ In c_nl l /\ ~ In NUL l.

Lemma text_rows : forall ls, Forall clean_row ls -> rows (text_of ls) ls /\ ~ In NUL (text_of ls) /\ complete (text_of ls).
Proof.
  intros ls F. induction F as [|l ls (A & B) F (IH1 & IH2 & IH3)]; [split; [constructor|split; [intros []|left; reflexivity]]|].
  unfold text_of. cbn [map concat]. fold (text_of ls). split; [rewrite <- app_assoc; cbn [app]; constructor; assumption|]. split.
  - intro I. apply in_app_or in I. destruct I as [I|I]; [|contradiction]. apply in_app_or in I. destruct I as [I|[I|[]]]; [contradiction|discriminate].
  - right. destruct IH3 as [X|X]; [rewrite X, app_nil_r; apply last_last|]. rewrite last_app_ne; [exact X|]. intro Y. rewrite Y in X. discriminate.
Qed.
Lemma rows_text : forall t ls, rows t ls -> complete t -> ~ In NUL t -> t = text_of ls /\ Forall clean_row ls.
Proof.
  intros t ls R. induction R as [|t NE N|l t ls N R IH]; intros C Z.
  - split; [reflexivity|constructor].
  - exfalso. destruct C as [C|C]; [congruence|]. apply N. rewrite <- C. apply last_in. exact NE.
  - destruct IH as (IH & F).
    + destruct t as [|x t]; [left; reflexivity|]. right. destruct C as [C|C]; [destruct l; discriminate|]. change (l ++ c_nl :: x :: t)%list with (l ++ [c_nl] ++ (x :: t))%list in C. rewrite app_assoc, last_app_ne in C by discriminate. exact C.
    + intro I. apply Z. apply in_or_app. right. right. exact I.
    + split; [unfold text_of; cbn [map concat]; fold (text_of ls); rewrite <- IH, <- app_assoc; reflexivity|]. constructor; [|exact F]. split; [exact N|]. intro I. apply Z. apply in_or_app. left. exact I.
Qed.

Lemma lines_text : forall ls, Forall clean_row ls -> lines_of (text_of ls) = map (fun l => l ++ [c_nl])%list ls.
Proof.
  intros ls F. induction F as [|l ls (A & B) F IH]; [reflexivity|]. unfold text_of. cbn [map concat]. fold (text_of ls). rewrite <- app_assoc. cbn [app]. rewrite lines_cons by exact A. rewrite IH. reflexivity.
Qed.

Lemma copy_spec : forall E user n cur ls k t found, ~ In ":"%char user -> 1 <= n -> plain cur -> cur <> [] -> Forall clean_row ls ->
  copy_lines E user n cur k (map (fun l => l ++ [c_nl])%list ls) = inr (t, found) ->
  exists ls', t = text_of ls' /\ Forall clean_row ls' /\ copied user n cur ls ls' found.
Proof.
  intros E user n cur ls. induction ls as [|l ls IH]; intros k t found NU N PC NC F H.
  - cbn [map copy_lines] in H. injection H as <- <-. exists []. split; [reflexivity|]. split; constructor.
  - inversion F as [|? ? (A & B) F']; subst. cbn [map copy_lines] in H. destruct (e_dup E k); cbn [negb] in H; [|discriminate].
    destruct (chomp_row l A B) as (CH & _). rewrite CH in H.
    assert (CUT : cut (l ++ [c_nl])%list = (l ++ [c_nl])%list). { apply cut_id. intro I. apply in_app_or in I. destruct I as [I|[I|[]]]; [contradiction|discriminate]. } rewrite CUT in H.
    assert (GO : forall out fd, match copy_lines E user n cur (S k) (map (fun l => l ++ [c_nl])%list ls) with inl r => inl r | inr (t, f) => inr ((out ++ t)%list, fd || f) end = inr (t, found) ->
      exists ls' f, t = (out ++ text_of ls')%list /\ found = fd || f /\ Forall clean_row ls' /\ copied user n cur ls ls' f).
    { intros out fd X. destruct (copy_lines E user n cur (S k) (map (fun l => l ++ [c_nl])%list ls)) as [r|(t', f')] eqn:C; [discriminate|]. injection X as <- <-.
      destruct (IH (S k) t' f' NU N PC NC F' C) as (ls' & -> & FC & CP). exists ls', f'. auto. }
    assert (KEEP : (forall x, l <> (user ++ ":"%char :: x)%list) ->
      (if negb (e_put E k) then inl PAM_AUTHTOK_ERR else match copy_lines E user n cur (S k) (map (fun l => l ++ [c_nl])%list ls) with inl r => inl r | inr (t, f) => inr (((l ++ [c_nl]) ++ t)%list, false || f) end) = inr (t, found) ->
      exists ls', t = text_of ls' /\ Forall clean_row ls' /\ copied user n cur (l :: ls) ls' found).
    { intros NO X. destruct (e_put E k); cbn [negb] in X; [|discriminate]. destruct (GO _ _ X) as (ls' & f & -> & -> & FC & CP). exists (l :: ls'). split; [reflexivity|]. split; [constructor; [split; assumption|exact FC]|]. constructor; assumption. }
    destruct l as [|c l0].
    + apply KEEP; [|exact H]. intros x X. destruct user; discriminate.
    + remember (c :: l0) as l eqn:EL. assert (OWN : own_line user l = false -> forall x, l <> (user ++ ":"%char :: x)%list). { intros O x X. assert (own_line user l = true) by (apply own_iff; exists x; exact X). congruence. }
      destruct (own_line user l) eqn:OW; [|apply KEEP; [apply OWN; reflexivity|exact H]]. destruct (parse_entry l) as [e|] eqn:P.
      * assert (X : exists y, l = (user ++ ":"%char :: y)%list) by (apply own_iff; exact OW). destruct X as (y & X).
        assert (U : o_user e = user).
        { revert P. rewrite X. unfold parse_entry. rewrite fld_cons by exact NU. destruct (fields ":"%char y) as [|i [|cnt r]]; [discriminate|discriminate|].
          destruct (match strtol cnt with (_, Some rest) => rest | (_, None) => cnt end); [|discriminate]. intro P. injection P as <-. reflexivity. }
        assert (EN : entry_of user l (o_uid e) (olds e)) by (apply parse_entry_iff; [exact NU|]; split; [exact OW|]; exists e; auto).
        pose proof (new_entry_spec user l e n cur NU A B OW P U N PC NC) as NS. destruct (new_entry e n cur) as [out|].
        -- destruct (e_out E k); cbn [negb] in H; [|discriminate]. destruct (e_put E k); cbn [negb] in H; [|discriminate]. destruct (GO _ _ H) as (ls' & f & -> & -> & FC & CP).
           destruct NS as (l' & hs' & -> & A' & B' & UP & EN'). exists (l' :: ls'). split; [reflexivity|]. split; [constructor; [split; assumption|exact FC]|]. cbn [orb]. eapply cp_entry; eassumption.
        -- destruct (e_put E k); cbn [negb] in H; [|discriminate]. destruct (GO _ _ H) as (ls' & f & -> & -> & FC & CP).
           exists (l :: ls'). split; [reflexivity|]. split; [constructor; [split; assumption|exact FC]|]. cbn [orb]. eapply cp_entry; eassumption.
      * destruct (GO _ _ H) as (ls' & f & -> & -> & FC & CP). exists ls'. split; [reflexivity|]. split; [exact FC|]. cbn [orb]. assert (X : exists y, l = (user ++ ":"%char :: y)%list) by (apply own_iff; exact OW). destruct X as (y & X).
        eapply cp_drop; [exact X| |exact CP]. intros uid hs EN. apply parse_entry_iff in EN; [|exact NU]. destruct EN as (_ & e & Q & _). congruence.
Qed.

(** The first entry of a user in a list of rows. *)
Definition first (user : cstr) (ls : list cstr) (hs : list cstr) : Prop :=
  exists a l b uid, ls = (a ++ l :: b)%list /\ entry_of user l uid hs /\ forall l' uid' hs', In l' a -> ~ entry_of user l' uid' hs'.
Definition none (user : cstr) (ls : list cstr) : Prop := forall l uid hs, In l ls -> ~ entry_of user l uid hs.
Lemma recorded_first : forall user t ls hs, rows t ls -> ~ In NUL t -> (recorded user t hs <-> first user ls hs).
Proof.
  intros user t ls hs R Z. split.
  - intros (a & l & b & uid & R' & X). pose proof (rows_unique _ _ _ R R' Z) as ->. exists a, l, b, uid. tauto.
  - intros (a & l & b & uid & -> & X). exists a, l, b, uid. tauto.
Qed.
Lemma unrecorded_none : forall user t ls, rows t ls -> ~ In NUL t -> (unrecorded user t <-> none user ls).
Proof.
  intros user t ls R Z. split; [intros (ls' & R' & X); pose proof (rows_unique _ _ _ R R' Z) as ->; exact X|]. intro X. exists ls. auto.
Qed.
Lemma first_here : forall user l ls uid hs, entry_of user l uid hs -> first user (l :: ls) hs.
Proof. intros user l ls uid hs EN. exists [], l, ls, uid. split; [reflexivity|]. split; [exact EN|]. intros ? ? ? []. Qed.
Lemma first_later : forall user l ls hs, (forall uid hs', ~ entry_of user l uid hs') -> (first user (l :: ls) hs <-> first user ls hs).
Proof.
  intros user l ls hs N. split.
  - intros (a & l' & b & uid & E & EN & A). destruct a as [|x a]; cbn [app] in E; injection E as -> E; [destruct (N _ _ EN)|]. exists a, l', b, uid. split; [exact E|]. split; [exact EN|]. intros ? ? ? I. apply A. right. exact I.
  - intros (a & l' & b & uid & -> & EN & A). exists (l :: a), l', b, uid. split; [reflexivity|]. split; [exact EN|]. intros ? ? ? [<-|I]; [apply N|apply A; exact I].
Qed.
Lemma first_hd : forall user l ls uid hs hs', ~ In ":"%char user -> entry_of user l uid hs -> first user (l :: ls) hs' -> hs = hs'.
Proof.
  intros user l ls uid hs hs' NU EN (a & l' & b & uid' & E & EN' & A). destruct a as [|x a]; cbn [app] in E; injection E as -> E; [eapply entry_unique in EN'; [|exact NU|exact EN]; tauto|].
  destruct (A x uid hs (or_introl eq_refl) EN).
Qed.
Lemma entry_owner : forall user l uid hs, entry_of user l uid hs -> exists x, l = (user ++ ":"%char :: x)%list.
Proof. intros user l uid hs (cnt & rest & -> & _). eexists. reflexivity. Qed.
Lemma owner_unique : forall u v x y, ~ In ":"%char u -> ~ In ":"%char v -> (u ++ ":"%char :: x)%list = (v ++ ":"%char :: y)%list -> u = v.
Proof.
  intros u v x y A B H. apply (f_equal (fields ":"%char)) in H. rewrite !fld_cons in H by assumption. injection H as H _. exact H.
Qed.

Lemma copied_own : forall user n cur ls ls' f, ~ In ":"%char user -> copied user n cur ls ls' f ->
  (f = false -> none user ls /\ none user ls') /\ (forall hs, first user ls hs -> exists hs', update n hs cur hs' /\ first user ls' hs') /\ (f = true -> exists hs, first user ls hs).
Proof.
  intros user n cur ls ls' f NU C. induction C as [|l ls ls' f NO C (I1 & I2 & I3)|l ls ls' f x X NO C (I1 & I2 & I3)|l l' uid hs hs' ls ls' f EN UP EN' C _].
  - split; [intros _; split; intros ? ? ? []|]. split; [|discriminate]. intros hs (a & l & b & uid & E & _). destruct a; discriminate.
  - assert (NE : forall uid hs, ~ entry_of user l uid hs) by (intros uid hs EN; apply entry_owner in EN; destruct EN as (x & ->); destruct (NO x eq_refl)). split; [|split].
    + intro E. destruct (I1 E) as (N1 & N2). split; intros l' uid hs [<-|I]; [apply NE|apply N1; exact I|apply NE|apply N2; exact I].
    + intros hs H. apply first_later in H; [|exact NE]. destruct (I2 hs H) as (hs' & UP & H'). exists hs'. split; [exact UP|]. apply first_later; assumption.
    + intro E. destruct (I3 E) as (hs & H). exists hs. apply first_later; assumption.
  - split; [|split].
    + intro E. destruct (I1 E) as (N1 & N2). split; [|exact N2]. intros l' uid hs [<-|I]; [apply NO|apply N1; exact I].
    + intros hs H. apply first_later in H; [|exact NO]. exact (I2 hs H).
    + intro E. destruct (I3 E) as (hs & H). exists hs. apply first_later; assumption.
  - split; [discriminate|]. split; [|intros _; exists hs; eapply first_here; exact EN]. intros hs2 H. pose proof (first_hd _ _ _ _ _ _ NU EN H) as <-. exists hs'. split; [exact UP|]. eapply first_here. exact EN'.
Qed.
Lemma copied_other : forall user n cur ls ls' f other, ~ In ":"%char user -> ~ In ":"%char other -> other <> user -> copied user n cur ls ls' f ->
  forall hs, first other ls hs <-> first other ls' hs.
Proof.
  intros user n cur ls ls' f other NU NV D C.
  assert (NE : forall l x uid hs, l = (user ++ ":"%char :: x)%list -> ~ entry_of other l uid hs).
  { intros l x uid hs E EN. apply entry_owner in EN. destruct EN as (y & EN). rewrite E in EN. apply D. symmetry. eapply owner_unique; [exact NU|exact NV|exact EN]. }
  induction C as [|l ls ls' f NO C IH|l ls ls' f x X NO C IH|l l' uid hs hs' ls ls' f EN UP EN' C IH]; intro hs0.
  - reflexivity.
  - split; intros (a & m & b & uid & E & EN & A); (destruct a as [|y a]; cbn [app] in E; injection E as -> E; [eapply first_here; exact EN|]).
    + assert (first other ls hs0) as H by (exists a, m, b, uid; split; [exact E|]; split; [exact EN|]; intros ? ? ? I; apply A; right; exact I). apply first_later; [intros u h; apply A; left; reflexivity|]. apply IH. exact H.
    + assert (first other ls' hs0) as H by (exists a, m, b, uid; split; [exact E|]; split; [exact EN|]; intros ? ? ? I; apply A; right; exact I). apply first_later; [intros u h; apply A; left; reflexivity|]. apply IH. exact H.
  - rewrite first_later; [exact (IH hs0)|]. intros u h. eapply NE. exact X.
  - apply entry_owner in EN. destruct EN as (x & EN). apply entry_owner in EN'. destruct EN' as (x' & EN'). rewrite first_later by (intros u h; eapply NE; exact EN). rewrite first_later by (intros u h; eapply NE; exact EN'). exact (IH hs0).
Qed.

Lemma first_snoc : forall user ls l uid hs, none user ls -> entry_of user l uid hs -> first user (ls ++ [l]) hs.
Proof. intros user ls l uid hs N EN. exists ls, l, [], uid. auto. Qed.
Lemma first_snoc_other : forall other ls l hs, (forall uid hs', ~ entry_of other l uid hs') -> (first other ls hs <-> first other (ls ++ [l]) hs).
Proof.
  intros other ls l hs N. split.
  - intros (a & m & b & uid & -> & EN & A). exists a, m, (b ++ [l])%list, uid. rewrite <- app_assoc. auto.
  - intros (a & m & b & uid & E & EN & A). destruct b as [|x b'] using rev_ind.
    + apply app_inj_tail in E. destruct E as (_ & <-). destruct (N _ _ EN).
    + clear IHb'. change (m :: b' ++ [x])%list with ((m :: b') ++ [x])%list in E. rewrite app_assoc in E. apply app_inj_tail in E. destruct E as (-> & _). exists a, m, b', uid. auto.
Qed.

(** ** save_old_pass *)

(** The hash that is saved: that of the shadow file if the password field says so, else the field. *)
Inductive current (E : env) (user : cstr) : cstr -> Prop :=
| cur_shadow : forall p h, e_pw E user = Some p -> (p_passwd p = lit "x" \/ p_passwd p = (lit "##" ++ p_name p)%list) -> e_sp E user = Some (Some h) -> current E user h
| cur_field : forall p, e_pw E user = Some p -> p_passwd p <> lit "x" -> p_passwd p <> (lit "##" ++ p_name p)%list -> current E user (p_passwd p).
Definition content (d : disk) (f : cstr) : list ascii := match d f with Some x => f_data x | None => [] end.

Lemma shadowed_iff : forall p, (streq (p_passwd p) (lit "x") || match p_passwd p with a :: b :: r => Ascii.eqb a "#"%char && Ascii.eqb b "#"%char && streq (p_name p) r | _ => false end = true) <->
  (p_passwd p = lit "x" \/ p_passwd p = (lit "##" ++ p_name p)%list).
Proof.
  intro p. rewrite orb_true_iff. rewrite streq_eq. apply or_iff_compat_l. destruct (p_passwd p) as [|a [|b r]]; [split; discriminate|split; [discriminate|intro X; injection X as _ X; discriminate]|].
  rewrite !andb_true_iff, !Ascii.eqb_eq, streq_eq. split; [intros ((-> & ->) & <-); reflexivity|]. intro X. injection X as -> -> ->. auto.
Qed.
Lemma current_iff : forall E user p h, e_pw E user = Some p -> (current_pass E user p = Some (Some h) <-> current E user h).
Proof.
  intros E user p h EP. unfold current_pass. pose proof (shadowed_iff p) as S.
  destruct (streq (p_passwd p) (lit "x") || match p_passwd p with a :: b :: r => Ascii.eqb a "#"%char && Ascii.eqb b "#"%char && streq (p_name p) r | _ => false end).
  - destruct S as (S & _). specialize (S eq_refl). split.
    + intro X. eapply cur_shadow; eassumption.
    + intro C. destruct C as [q h Q SH X|q Q N1 N2]; [exact X|]. assert (q = p) by congruence. subst q. tauto.
  - destruct S as (_ & S). split.
    + intro X. injection X as <-. apply cur_field; [exact EP|intro X; discriminate (S (or_introl X))|intro X; discriminate (S (or_intror X))].
    + intro C. destruct C as [q h Q SH X|q Q N1 N2]; assert (q = p) by congruence; subst q; [discriminate (S SH)|reflexivity].
Qed.

Lemma put_same : forall p v d, put p v d p = v.
Proof. intros. unfold put. rewrite streq_refl. reflexivity. Qed.
Lemma put_other : forall p q v d, q <> p -> put p v d q = d q.
Proof. intros p q v d N. unfold put. destruct (streq q p) eqn:S; [apply streq_eq in S; contradiction|reflexivity]. Qed.
Lemma backup_other : forall f : cstr, (f ++ lit ".old")%list <> f.
Proof. intros f H. apply (f_equal (@length ascii)) in H. rewrite app_length in H. cbn in H. lia. Qed.

Lemma copy_error : forall E user n cur ls k r, copy_lines E user n cur k ls = inl r -> r <> PAM_SUCCESS.
Proof.
  intros E user n cur ls. induction ls as [|l ls IH]; intros k r H; cbn [copy_lines] in H; [discriminate|].
  assert (GO : forall out fd, match copy_lines E user n cur (S k) ls with inl r => inl r | inr (t, f) => inr ((out ++ t)%list, fd || f) end = inl r -> r <> PAM_SUCCESS).
  { intros out fd X. destruct (copy_lines E user n cur (S k) ls) as [r'|(t', f')] eqn:C; [injection X as ->; eapply IH; exact C|discriminate]. }
  destruct (negb (e_dup E k)); [injection H as <-; discriminate|]. destruct (chomp [c_nl] l) as [|c0 l0].
  - destruct (negb (e_put E k)); [injection H as <-; discriminate|eapply GO; exact H].
  - destruct (own_line user (c0 :: l0)); [destruct (parse_entry (c0 :: l0)) as [e|]; [destruct (new_entry e n cur) as [out|]|]|].
    + destruct (negb (e_out E k)); [injection H as <-; discriminate|]. destruct (negb (e_put E k)); [injection H as <-; discriminate|eapply GO; exact H].
    + destruct (negb (e_put E k)); [injection H as <-; discriminate|eapply GO; exact H].
    + eapply GO; exact H.
    + destruct (negb (e_put E k)); [injection H as <-; discriminate|eapply GO; exact H].
Qed.
Lemma text_error : forall E user uid n cur t r, new_text E user uid n cur t = inl r -> r <> PAM_SUCCESS.
Proof.
  intros E user uid n cur t r H. unfold new_text in H. destruct (copy_lines E user n cur 0 (match t with Some t => lines_of t | None => [] end)) as [r'|(x, [])] eqn:C.
  - injection H as <-. eapply copy_error. exact C.
  - discriminate.
  - destruct (negb (e_out1 E)); [injection H as <-; discriminate|]. destruct (negb (e_put1 E)); [injection H as <-; discriminate|discriminate].
Qed.

(** The cases of save_old_pass. *)
Lemma save_cases : forall E d user n name r d', save_old_pass E d user n name = (r, d') ->
  d' = d /\ (r = PAM_SUCCESS -> n <= 0 \/ forall cur, current E user cur -> cur = []) \/
  r = PAM_SUCCESS /\ 0 < n /\ exists p cur t m u g, e_pw E user = Some p /\ current E user cur /\ cur <> [] /\
    new_text E user (p_uid p) n cur (match d (opasswd_file name) with Some x => Some (f_data x) | None => None end) = inr t /\
    (m, u, g) = (match d (opasswd_file name) with Some x => (if e_chmod E then f_mode x else 384, if e_chown E then f_uid x else 0, if e_chown E then f_gid x else 0) | None => (384, 0, 0) end) /\
    let b := (opasswd_file name ++ lit ".old")%list in
    let d1 := match d (opasswd_file name) with Some x => if e_link E then put b (Some x) (put b None d) else put b None d | None => put b None d end in
    d' = if e_rename E then put (opasswd_file name) (Some (mkFile t m u g)) d1 else d1.
Proof.
  intros E d user n name r d' H. unfold save_old_pass in H. set (f := opasswd_file name) in *. destruct (e_name E); cbn [negb] in H; [|injection H as <- <-; left; split; [reflexivity|discriminate]].
  destruct (e_pw E user) as [p|] eqn:EP; [|injection H as <- <-; left; split; [reflexivity|discriminate]]. destruct (Z.leb_spec n 0) as [L|L]; [injection H as <- <-; left; split; [reflexivity|intros _; left; exact L]|].
  destruct (current_pass E user p) as [[cur|]|] eqn:CP.
  2:{ injection H as <- <-; left; split; [reflexivity|]. intros _. right. intros cur C. apply (current_iff E user p) in C; [|exact EP]. congruence. }
  2:{ injection H as <- <-. left. split; [reflexivity|discriminate]. }
  destruct cur as [|c0 cur0].
  { injection H as <- <-; left; split; [reflexivity|]. intros _. right. intros cur C. apply (current_iff E user p) in C; [|exact EP]. congruence. }
  remember (c0 :: cur0) as cur eqn:EC. assert (NC : cur <> []) by congruence. clear EC c0 cur0.
  apply current_iff in CP; [|exact EP].
  assert (BF : put (f ++ lit ".old")%list None d f = d f) by (apply put_other; intro X; symmetry in X; apply backup_other in X; exact X).
  destruct (d f) as [x|] eqn:DF.
  - destruct (negb (e_fopen E) || negb (e_fstat E)); [injection H as <- <-; left; split; [reflexivity|discriminate]|]. destruct (e_mkstemp E); cbn [negb] in H; [|injection H as <- <-; left; split; [reflexivity|discriminate]].
    destruct (e_chown E) eqn:CO.
    + destruct (e_fdopen E); cbn [negb] in H; [|injection H as <- <-; left; split; [reflexivity|discriminate]]. destruct (new_text E user (p_uid p) n cur (Some (f_data x))) as [r0|t] eqn:NT; [injection H as <- <-; left; split; [reflexivity|intro X; destruct (text_error _ _ _ _ _ _ _ NT X)]|].
      destruct (e_close E); cbn [negb] in H; [|injection H as <- <-; left; split; [reflexivity|discriminate]]. destruct (e_sync E); cbn [negb] in H; [|injection H as <- <-; left; split; [reflexivity|discriminate]].
      destruct (e_close1 E); cbn [negb] in H; [|injection H as <- <-; left; split; [reflexivity|discriminate]]. destruct (e_bak E); cbn [negb] in H; [|injection H as <- <-; left; split; [reflexivity|discriminate]].
      rewrite BF in H. injection H as <- <-. right. split; [reflexivity|]. split; [exact L|]. exists p, cur, t, (if e_chmod E then f_mode x else 384), (f_uid x), (f_gid x). auto 10.
    + destruct (e_fdopen E); cbn [negb] in H; [|injection H as <- <-; left; split; [reflexivity|discriminate]]. destruct (new_text E user (p_uid p) n cur (Some (f_data x))) as [r0|t] eqn:NT; [injection H as <- <-; left; split; [reflexivity|intro X; destruct (text_error _ _ _ _ _ _ _ NT X)]|].
      destruct (e_close E); cbn [negb] in H; [|injection H as <- <-; left; split; [reflexivity|discriminate]]. destruct (e_sync E); cbn [negb] in H; [|injection H as <- <-; left; split; [reflexivity|discriminate]].
      destruct (e_close1 E); cbn [negb] in H; [|injection H as <- <-; left; split; [reflexivity|discriminate]]. destruct (e_bak E); cbn [negb] in H; [|injection H as <- <-; left; split; [reflexivity|discriminate]].
      rewrite BF in H. injection H as <- <-. right. split; [reflexivity|]. split; [exact L|]. exists p, cur, t, (if e_chmod E then f_mode x else 384), 0, 0. auto 10.
  - destruct (e_mkstemp E); cbn [negb] in H; [|injection H as <- <-; left; split; [reflexivity|discriminate]].
    replace (if e_chmod E then 384 else 384) with 384 in H by (destruct (e_chmod E); reflexivity). replace (if e_chown E then (0, 0) else (0, 0)) with (0, 0) in H by (destruct (e_chown E); reflexivity).
    destruct (e_fdopen E); cbn [negb] in H; [|injection H as <- <-; left; split; [reflexivity|discriminate]]. destruct (new_text E user (p_uid p) n cur None) as [r0|t] eqn:NT; [injection H as <- <-; left; split; [reflexivity|intro X; destruct (text_error _ _ _ _ _ _ _ NT X)]|].
    destruct (e_sync E); cbn [negb] in H; [|injection H as <- <-; left; split; [reflexivity|discriminate]].
    destruct (e_close1 E); cbn [negb] in H; [|injection H as <- <-; left; split; [reflexivity|discriminate]]. destruct (e_bak E); cbn [negb] in H; [|injection H as <- <-; left; split; [reflexivity|discriminate]].
    rewrite BF in H. injection H as <- <-. right. split; [reflexivity|]. split; [exact L|]. exists p, cur, t, 384, 0, 0. auto 10.
Qed.

(** Other files stay as they are; a failed call changes nothing; the backup is what the history was; the history keeps its mode and owners, or gets those
    of a fresh file, 0600. *)
Theorem save_frame : forall E d user n name r d', save_old_pass E d user n name = (r, d') ->
  let f := opasswd_file name in let b := (f ++ lit ".old")%list in
  (r <> PAM_SUCCESS -> d' = d) /\
  (forall q, q <> f -> q <> b -> d' q = d q) /\
  (d' b = d b \/ d' b = d f \/ d' b = None) /\
  (d' f = d f \/ exists x, d' f = Some x /\
     (f_mode x = 384 \/ exists y, d f = Some y /\ f_mode x = f_mode y) /\
     (f_uid x = 0 /\ f_gid x = 0 \/ exists y, d f = Some y /\ f_uid x = f_uid y /\ f_gid x = f_gid y) /\
     (forall y, d f = Some y -> (e_chmod E = true -> f_mode x = f_mode y) /\ (e_chown E = true -> f_uid x = f_uid y /\ f_gid x = f_gid y) /\ (e_link E = true -> d' b = Some y))).
Proof.
  intros E d user n name r d' H f b. destruct (save_cases _ _ _ _ _ _ _ H) as [(-> & _)|(-> & _ & p & cur & t & m & u & g & EP & C & NC & NT & MU & D)].
  { auto 10. }
  fold f b in NT, MU, D. cbv zeta in D. set (d1 := match d f with Some x => if e_link E then put b (Some x) (put b None d) else put b None d | None => put b None d end) in D.
  assert (FB : f <> b) by (intro X; symmetry in X; apply backup_other in X; exact X).
  assert (Q1 : forall q, q <> b -> d1 q = d q).
  { intros q N. unfold d1. destruct (d f); [destruct (e_link E)|]; rewrite ?put_other by exact N; reflexivity. }
  assert (QB : d1 b = d f \/ d1 b = None).
  { unfold d1. destruct (d f); [destruct (e_link E)|]; rewrite put_same; auto. }
  assert (QB' : d' b = d1 b). { rewrite D. destruct (e_rename E); [apply put_other; intro X; apply FB; symmetry; exact X|reflexivity]. }
  split; [intro X; congruence|]. split.
  { intros q N1 N2. rewrite D. destruct (e_rename E); [rewrite put_other by exact N1|]; apply Q1; exact N2. }
  split; [rewrite QB'; tauto|]. assert (DV : d' f = if e_rename E then Some (mkFile t m u g) else d f) by (rewrite D; destruct (e_rename E); [apply put_same|apply Q1; exact FB]).
  rewrite DV. destruct (e_rename E); [|left; reflexivity]. right. eexists. split; [reflexivity|]. cbn [f_mode f_uid f_gid].
  assert (LB : forall y, d f = Some y -> e_link E = true -> d' b = Some y). { intros y DF LK. rewrite QB'. unfold d1. rewrite DF, LK. apply put_same. }
  destruct (d f) as [y|] eqn:DF.
  - injection MU as -> -> ->. split; [destruct (e_chmod E); [right; exists y; auto|left; reflexivity]|]. split; [destruct (e_chown E); [right; exists y; auto|left; auto]|].
    intros y' Y. injection Y as <-. split; [intros ->; reflexivity|]. split; [intros ->; auto|]. apply LB. reflexivity.
  - injection MU as -> -> ->. split; [left; reflexivity|]. split; [left; auto|]. intros y Y. discriminate.
Qed.

(** What is saved: the user's record is updated, or made; the records of the others are as before; every row ends in a newline again. *)
Theorem save_updates : forall E d user n name d' cur, save_old_pass E d user n name = (PAM_SUCCESS, d') -> e_rename E = true -> 0 < n -> current E user cur -> cur <> [] ->
  (forall p, e_pw E user = Some p -> 0 <= p_uid p < 2 ^ 32) ->
  plain cur -> clean_row user -> ~ In ":"%char user -> let f := opasswd_file name in complete (content d f) -> ~ In NUL (content d f) ->
  (forall hs, recorded user (content d f) hs -> exists hs', update n hs cur hs' /\ recorded user (content d' f) hs') /\
  (unrecorded user (content d f) -> recorded user (content d' f) [cur]) /\
  (forall other hs, other <> user -> ~ In ":"%char other -> (recorded other (content d f) hs <-> recorded other (content d' f) hs)) /\
  complete (content d' f) /\ ~ In NUL (content d' f).
Proof.
  intros E d user n name d' cur H RN N C NC UR PC (U1 & U2) NU f CM Z. destruct (save_cases _ _ _ _ _ _ _ H) as [(_ & X)|(_ & _ & p & cur' & t & m & u & g & EP & C' & _ & NT & _ & D)].
  { destruct (X eq_refl) as [X1|X1]; [lia|]. destruct NC. apply X1. exact C. }
  assert (cur' = cur). { apply (current_iff E user p) in C; [|exact EP]. apply (current_iff E user p) in C'; [|exact EP]. congruence. } subst cur'.
  cbv zeta in D. rewrite RN in D. assert (DT : content d' f = t) by (unfold content; rewrite D; fold f; rewrite put_same; reflexivity). rewrite DT. clear D DT d' H.
  destruct (rows_exist (content d f)) as (ls & R). destruct (rows_text _ _ R CM Z) as (TX & CL).
  unfold new_text in NT. assert (LN : match (match d f with Some x => Some (f_data x) | None => None end) with Some t => lines_of t | None => [] end = map (fun l => l ++ [c_nl])%list ls).
  { rewrite <- lines_text by exact CL. rewrite <- TX. unfold content. destruct (d f); reflexivity. }
  fold f in NT. rewrite LN in NT. destruct (copy_lines E user n cur 0 (map (fun l => l ++ [c_nl])%list ls)) as [r|(t', fd)] eqn:CY; [discriminate|].
  apply copy_spec in CY; [|assumption || lia..]. destruct CY as (ls' & -> & CL' & CP). destruct (copied_own _ _ _ _ _ _ NU CP) as (O1 & O2 & O3).
  destruct fd.
  - injection NT as <-. destruct (text_rows ls' CL') as (R' & Z' & CM'). split; [|split; [|split; [|split; assumption]]].
    + intros hs X. apply (recorded_first user _ ls) in X; [|assumption..]. destruct (O2 hs X) as (hs' & UP & Y). exists hs'. split; [exact UP|]. apply (recorded_first user _ ls'); assumption.
    + intro X. apply (unrecorded_none user _ ls) in X; [|assumption..]. destruct (O3 eq_refl) as (hs & (a & l & b & uid & E1 & EN & _)). exfalso. apply (X l uid hs); [rewrite E1; apply in_or_app; right; left; reflexivity|exact EN].
    + intros other hs D NV. rewrite (recorded_first other _ ls) by assumption. rewrite (recorded_first other _ ls') by assumption. exact (copied_other _ _ _ _ _ _ other NU NV D CP hs).
  - destruct (e_out1 E); cbn [negb] in NT; [|discriminate]. destruct (e_put1 E); cbn [negb] in NT; [|discriminate]. destruct (O1 eq_refl) as (N1 & N2).
    set (l := (user ++ ":"%char :: dec_uid (p_uid p) ++ lit ":1:" ++ cur)%list).
    assert (T : t = text_of (ls' ++ [l])).
    { injection NT as <-. unfold text_of. rewrite map_app, concat_app. cbn [map concat]. rewrite app_nil_r. unfold l. repeat (rewrite <- ?app_assoc; cbn [app]). reflexivity. }
    specialize (UR p EP).
    assert (DU : forall x, In x (dec_uid (p_uid p)) -> x <> ":"%char /\ x <> c_nl /\ x <> NUL).
    { intros x I. unfold dec_uid in I. destruct (p_uid p <? 2 ^ 31) eqn:LT.
      - destruct (decimal_count (p_uid p)) as (_ & A1 & A2 & A3); [lia|]. repeat split; intros ->; contradiction.
      - destruct I as [<-|I]; [repeat split; discriminate|]. destruct (decimal_count (2 ^ 32 - p_uid p)) as (_ & A1 & A2 & A3); [lia|]. repeat split; intros ->; contradiction. }
    destruct PC as (C1 & C2 & C3 & C4).
    assert (CLl : clean_row l).
    { assert (A : forall x, In x l -> x <> c_nl /\ x <> NUL).
      { intros x I. unfold l in I. apply in_app_or in I. destruct I as [I|[<-|I]]; [split; intros ->; contradiction|split; discriminate|]. apply in_app_or in I. destruct I as [I|I]; [apply DU in I; tauto|].
        apply in_app_or in I. destruct I as [I|I]; [cbn in I; destruct I as [<-|[<-|[<-|[]]]]; split; discriminate|split; intros ->; contradiction]. }
      split; intro I; apply A in I; tauto. }
    assert (EN : entry_of user l (dec_uid (p_uid p)) [cur]).
    { exists (lit "1"), (":"%char :: cur). split; [reflexivity|]. split; [intro I; apply DU in I; tauto|]. split; [apply no_in; reflexivity|]. split; [right; exists false, 1; exists [], [], (lit "1"); repeat split; auto; [discriminate|intros c [<-|[]]; reflexivity]|].
      right. exists cur, []. rewrite app_nil_r. split; [reflexivity|]. split; [exact C3|]. split; [left; reflexivity|]. right. split; [exact NC|]. split; [discriminate|]. split; [reflexivity|]. intros h [<-|[]]. exact C4. }
    assert (CL2 : Forall clean_row (ls' ++ [l])) by (apply Forall_app; split; [exact CL'|constructor; [exact CLl|constructor]]).
    rewrite T. destruct (text_rows _ CL2) as (R' & Z' & CM'). split; [|split; [|split; [|split; assumption]]].
    + intros hs X. exfalso. apply (recorded_first user _ ls) in X; [|assumption..]. destruct X as (a & l0 & b & uid & E1 & EN0 & _). apply (N1 l0 uid hs); [rewrite E1; apply in_or_app; right; left; reflexivity|exact EN0].
    + intros _. apply (recorded_first user _ (ls' ++ [l])); [assumption..|]. eapply first_snoc; eassumption.
    + intros other hs D NV. rewrite (recorded_first other _ ls) by assumption. rewrite (recorded_first other _ (ls' ++ [l])) by assumption. rewrite (copied_other _ _ _ _ _ _ other NU NV D CP hs). apply first_snoc_other.
      intros uid hs' EN0. apply entry_owner in EN0. destruct EN0 as (y & EN0). unfold l in EN0. apply D. symmetry. eapply owner_unique; [exact NU|exact NV|exact EN0].
Qed.

(** After saving, the user has a record of at most [n] hashes, whose last is the current one. *)
Theorem history_bounded : forall E d user n name d' cur, save_old_pass E d user n name = (PAM_SUCCESS, d') -> e_rename E = true -> 0 < n -> current E user cur -> cur <> [] ->
  (forall p, e_pw E user = Some p -> 0 <= p_uid p < 2 ^ 32) ->
  plain cur -> clean_row user -> ~ In ":"%char user -> complete (content d (opasswd_file name)) -> ~ In NUL (content d (opasswd_file name)) ->
  exists hs a, recorded user (content d' (opasswd_file name)) hs /\ hs = (a ++ [cur])%list /\ Z.of_nat (length hs) <= n.
Proof.
  intros E d user n name d' cur H RN N C NC UR PC CU NU CM Z. destruct (save_updates E d user n name d' cur H RN N C NC UR PC CU NU CM Z) as (A & B & _).
  destruct (find_entry user (lines_of (content d (opasswd_file name)))) as [e|] eqn:FE.
  - destruct (A (olds e)) as (hs' & UP & R); [apply find_recorded; [assumption..|]; exists e; auto|]. destruct UP as [((a & E1) & L & ->)|(_ & dr & E1 & L)].
    + exists (olds e), a. auto.
    + destruct hs' as [|x hs'] using rev_ind; [cbn [length] in L; lia|]. clear IHhs'. rewrite app_assoc in E1. apply app_inj_tail in E1. destruct E1 as (_ & <-). exists (hs' ++ [cur])%list, hs'. split; [exact R|]. split; [reflexivity|]. lia.
  - exists [cur], []. split; [apply B; apply find_unrecorded; assumption|]. split; [reflexivity|]. cbn [length]. lia.
Qed.

Lemma check_content : forall E d user np name hs h, ~ In ":"%char user -> ~ In NUL (content d (opasswd_file name)) -> e_fopen E = true ->
  check_old_pass E d user np name = PAM_SUCCESS -> recorded user (content d (opasswd_file name)) hs -> In h hs -> ~ hash_of E np h.
Proof.
  intros E d user np name hs h NU Z O S R I. unfold content in *. destruct (d (opasswd_file name)) as [f|] eqn:D.
  - eapply accepted_not_recorded; eassumption.
  - exfalso. apply find_recorded in R; [|assumption..]. destruct R as (e & X & _). discriminate.
Qed.

(** The password that was current when it was saved is refused. *)
Theorem saved_refused : forall E d user n name d' cur np, save_old_pass E d user n name = (PAM_SUCCESS, d') -> e_rename E = true -> e_fopen E = true -> 0 < n -> current E user cur -> cur <> [] ->
  (forall p, e_pw E user = Some p -> 0 <= p_uid p < 2 ^ 32) ->
  plain cur -> clean_row user -> ~ In ":"%char user -> complete (content d (opasswd_file name)) -> ~ In NUL (content d (opasswd_file name)) ->
  e_crypt E np cur = Some cur -> check_old_pass E d' user np name <> PAM_SUCCESS.
Proof.
  intros E d user n name d' cur np H RN FO N C NC UR PC CU NU CM Z K S. pose proof (save_updates E d user n name d' cur H RN N C NC UR PC CU NU CM Z) as (_ & _ & _ & _ & Z').
  destruct (history_bounded E d user n name d' cur H RN N C NC UR PC CU NU CM Z) as (hs & a & R & E1 & _).
  apply (check_content E d' user np name hs cur NU Z' FO S R); [rewrite E1; apply in_or_app; right; left; reflexivity|]. split; assumption.
Qed.

Definition ex_saved : disk := snd (save_old_pass ex_env ex_disk (lit "ann") 2 None).
Lemma ex_plain : plain (lit "h3") /\ clean_row (lit "ann") /\ ~ In ":"%char (lit "ann").
Proof. repeat split; apply no_in; reflexivity. Qed.
Lemma ex_uids : forall p, e_pw ex_env (lit "ann") = Some p -> 0 <= p_uid p < 2 ^ 32.
Proof. intros p H. injection H as <-. cbn. lia. Qed.
Lemma ex_current : current ex_env (lit "ann") (lit "h3").
Proof. eapply cur_shadow; [reflexivity|left; reflexivity|reflexivity]. Qed.
Example save_updates_example : save_old_pass ex_env ex_disk (lit "ann") 2 None = (PAM_SUCCESS, ex_saved) /\ complete (content ex_disk (opasswd_file None)) /\
  ~ In NUL (content ex_disk (opasswd_file None)) /\ content ex_saved (opasswd_file None) = (lit "bob:1001:1:hb" ++ c_nl :: lit "ann:1000:2:h2,h3" ++ [c_nl])%list /\
  update 2 [lit "h1"; lit "h2"] (lit "h3") [lit "h2"; lit "h3"].
Proof.
  split; [reflexivity|]. split; [right; reflexivity|]. split; [apply no_in; reflexivity|]. split; [vm_compute; reflexivity|]. right.
  split; [intros ((a & X) & _); apply (f_equal (fun l => last l [])) in X; rewrite last_last in X; discriminate|]. exists [lit "h1"]. split; reflexivity.
Qed.
Example save_frame_example : ex_saved (lit "/etc/security/opasswd.old") = ex_disk (lit "/etc/security/opasswd") /\ ex_saved (lit "/etc/passwd") = None.
Proof. vm_compute. auto. Qed.
Example history_bounded_example : recorded (lit "ann") (content ex_saved (opasswd_file None)) [lit "h2"; lit "h3"].
Proof. apply find_recorded; [apply no_in; reflexivity|apply no_in; vm_compute; reflexivity|]. eexists. split; [vm_compute; reflexivity|reflexivity]. Qed.
Example saved_refused_example : e_crypt ex_env (lit "3") (lit "h3") = Some (lit "h3") /\ check_old_pass ex_env ex_saved (lit "ann") (lit "3") None = PAM_AUTHTOK_ERR.
Proof. vm_compute. auto. Qed.

(** Success does not mean that the password was saved: the result of rename is not looked at. *)
Theorem success_saves_refuted : exists E d user cur, current E user cur /\ cur <> [] /\ plain cur /\ fst (save_old_pass E d user 5 None) = PAM_SUCCESS /\
  unrecorded user (content (snd (save_old_pass E d user 5 None)) (opasswd_file None)).
Proof.
  exists (mkEnv ex_pw ex_sp ex_crypt (fun _ => true) true true true true true true true (fun _ => true) (fun _ => true) (fun _ => true) true true true true true true true false),
    (fun _ => None), (lit "ann"), (lit "h3").
  split; [eapply cur_shadow; [reflexivity|left; reflexivity|reflexivity]|]. split; [discriminate|]. split; [apply ex_plain|]. split; [reflexivity|].
  apply find_unrecorded; [apply no_in; reflexivity|apply no_in; vm_compute; reflexivity|vm_compute; reflexivity].
Qed.

Definition one_file (t : list ascii) : disk := fun p => if streq p (lit "/etc/security/opasswd") then Some (mkFile t 384 0 0) else None.
(** The current password is saved twice when fewer are to be kept than there are. *)
Theorem saved_once_refuted : exists E d user cur n, current E user cur /\ recorded user (content d (opasswd_file None)) [lit "h1"; lit "h2"; cur] /\
  fst (save_old_pass E d user n None) = PAM_SUCCESS /\ recorded user (content (snd (save_old_pass E d user n None)) (opasswd_file None)) [cur; cur].
Proof.
  exists ex_env, (one_file (lit "ann:1000:3:h1,h2,h3" ++ [c_nl])%list), (lit "ann"), (lit "h3"), 2. split; [exact ex_current|].
  split; [apply find_recorded; [apply no_in; reflexivity|apply no_in; vm_compute; reflexivity|]; eexists; split; [vm_compute; reflexivity|reflexivity]|]. split; [reflexivity|].
  apply find_recorded; [apply no_in; reflexivity|apply no_in; vm_compute; reflexivity|]. eexists. split; [vm_compute; reflexivity|reflexivity].
Qed.
(** A last line without a newline is run together with the new one: the other user's record is changed and the user's own is lost. *)
Theorem other_records_kept_refuted : exists E d user cur other hs, current E user cur /\ other <> user /\ recorded other (content d (opasswd_file None)) hs /\
  fst (save_old_pass E d user 5 None) = PAM_SUCCESS /\ ~ recorded other (content (snd (save_old_pass E d user 5 None)) (opasswd_file None)) hs /\
  unrecorded user (content (snd (save_old_pass E d user 5 None)) (opasswd_file None)).
Proof.
  exists ex_env, (one_file (lit "bob:1001:1:hb")), (lit "ann"), (lit "h3"), (lit "bob"), [lit "hb"]. split; [exact ex_current|]. split; [discriminate|].
  split; [apply find_recorded; [apply no_in; reflexivity|apply no_in; vm_compute; reflexivity|]; eexists; split; [vm_compute; reflexivity|reflexivity]|]. split; [reflexivity|]. split.
  - intro R. apply find_recorded in R; [|apply no_in; reflexivity|apply no_in; vm_compute; reflexivity]. destruct R as (e & X & Y).
    vm_compute in X. injection X as <-. discriminate Y.
  - apply find_unrecorded; [apply no_in; reflexivity|apply no_in; vm_compute; reflexivity|vm_compute; reflexivity].
Qed.
(** A hash with a comma is saved, but the password is not refused afterwards. *)
Theorem comma_refused_refuted : exists E d user cur np, current E user cur /\ cur <> [] /\ e_crypt E np cur = Some cur /\ e_rename E = true /\
  fst (save_old_pass E d user 5 None) = PAM_SUCCESS /\ check_old_pass E (snd (save_old_pass E d user 5 None)) user np None = PAM_SUCCESS.
Proof.
  exists (mkEnv (fun u => Some (mkPwent u (lit "$md5,rounds=9$s$x") 1000)) ex_sp (fun p h => if streq p (lit "pw") then Some (lit "$md5,rounds=9$s$x") else None)
    (fun _ => true) true true true true true true true (fun _ => true) (fun _ => true) (fun _ => true) true true true true true true true true), (fun _ => None), (lit "ann"), (lit "$md5,rounds=9$s$x"), (lit "pw").
  split; [apply (cur_field _ _ (mkPwent (lit "ann") (lit "$md5,rounds=9$s$x") 1000)); [reflexivity|discriminate|discriminate]|]. split; [discriminate|]. split; [reflexivity|]. split; [reflexivity|]. split; [reflexivity|]. vm_compute. reflexivity.
Qed.

(** ** The module *)

(** pam_get_authtok leaves the pointer alone when the two passwords differ (libpam/pam_get_authtok.c:166-175). *)
Definition honest (M : menv) : Prop := forall k p, m_tok M k = (PAM_TRY_AGAIN, p) -> p = None.
(** Refusals count for this caller. *)
Definition enforced (M : menv) (o : opts) : Prop := m_uid M <> 0 \/ h_root o = true \/ m_expired M = true.

Lemma enforced_iff : forall M o, negb (m_uid M =? 0) || h_root o || m_expired M = true <-> enforced M o.
Proof. intros M o. unfold enforced. rewrite !orb_true_iff, negb_true_iff, Z.eqb_neq. tauto. Qed.

Lemma ask_success : forall E M d user o more k p s, honest M -> enforced M o -> ask E M d user o more k = (PAM_SUCCESS, p, s) ->
  exists np j, p = Some np /\ (k <= j < k + more)%nat /\ m_tok M j = (PAM_SUCCESS, Some np) /\ check_old_pass E d user np (h_file o) = PAM_SUCCESS.
Proof.
  intros E M d user o more. induction more as [|more IH]; intros k p s HM EN H; cbn [ask] in H; [discriminate|].
  apply enforced_iff in EN as EN'. destruct (m_tok M k) as (r, [np|]) eqn:T.
  - destruct (negb (r =? PAM_SUCCESS) && negb (r =? PAM_TRY_AGAIN)) eqn:B.
    + exfalso. destruct (Z.eqb_spec r PAM_SUCCESS); [subst; discriminate|]. destruct (r =? PAM_CONV_AGAIN); [discriminate|]. injection H as H _ _. contradiction.
    + destruct (Z.eqb_spec r PAM_TRY_AGAIN) as [->|NT]; [apply HM in T; discriminate|]. assert (r = PAM_SUCCESS) as -> by (destruct (Z.eqb_spec r PAM_SUCCESS); [assumption|discriminate]).
      destruct (Z.eqb_spec (check_old_pass E d user np (h_file o)) PAM_SUCCESS) as [C|C].
      * injection H as <- <-. exists np, k. split; [reflexivity|]. split; [lia|]. auto.
      * rewrite EN' in H. destruct (ask E M d user o more (S k)) as ((r', q'), s') eqn:A. injection H as -> <- <-. destruct (IH _ _ _ HM EN A) as (np' & j & E1 & J & X). exists np', j. split; [exact E1|]. split; [lia|exact X].
  - destruct (negb (r =? PAM_SUCCESS) && negb (r =? PAM_TRY_AGAIN)) eqn:B.
    + exfalso. destruct (Z.eqb_spec r PAM_SUCCESS); [subst; discriminate|]. destruct (r =? PAM_CONV_AGAIN); [discriminate|]. injection H as H _ _. contradiction.
    + destruct (IH _ _ _ HM EN H) as (np' & j & E1 & J & X). exists np', j. split; [exact E1|]. split; [lia|exact X].
Qed.

(** When the module succeeds in the update phase for somebody who is held to it, it has a new password, and this is neither the current one nor one of those kept. *)
Theorem new_password_unused : forall E M d args d' p s user cur hs, let o := options (m_conf M) args in let f := opasswd_file (h_file o) in
  chauthtok E M d args = (PAM_SUCCESS, d', p, s) -> m_user M = (PAM_SUCCESS, user) -> m_prelim M = false -> honest M -> enforced M o ->
  0 < h_remember o -> current E user cur -> cur <> [] -> (forall q, e_pw E user = Some q -> 0 <= p_uid q < 2 ^ 32) -> plain cur -> clean_row user -> ~ In ":"%char user ->
  complete (content d f) -> ~ In NUL (content d f) -> e_rename E = true -> e_fopen E = true ->
  (recorded user (content d f) hs \/ unrecorded user (content d f) /\ hs = []) ->
  exists np hs', p = Some np /\ update (h_remember o) hs cur hs' /\ (forall h, In h hs' -> ~ hash_of E np h) /\ ~ hash_of E np cur.
Proof.
  intros E M d args d' p s user cur hs o f H MU PR HM EN N C NC UR PC CU NU CM Z RN FO REC. unfold chauthtok in H. fold o in H. destruct (Z.eqb_spec (h_remember o) 0) as [X|_]; [lia|].
  rewrite MU, PR in H. cbn [Z.eqb negb] in H. destruct (save_old_pass E d user (h_remember o) (h_file o)) as (r1, d1) eqn:S. destruct (Z.eqb_spec r1 PAM_SUCCESS) as [->|NR]; cbn [negb] in H; [|injection H as X _ _ _; contradiction].
  destruct (ask E M d1 user o (Z.to_nat (h_tries o)) 0) as ((r2, q), s2) eqn:A. injection H as -> <- <- <-. destruct (ask_success _ _ _ _ _ _ _ _ _ HM EN A) as (np & j & -> & _ & _ & CK).
  destruct (save_updates E d user (h_remember o) (h_file o) d1 cur S RN N C NC UR PC CU NU CM Z) as (A1 & A2 & _ & _ & Z1). fold f in A1, A2, Z1.
  assert (G : exists hs', update (h_remember o) hs cur hs' /\ recorded user (content d1 f) hs').
  { destruct REC as [R|(R & ->)]; [exact (A1 hs R)|]. exists [cur]. split; [|exact (A2 R)]. right. split; [intros ((a & X) & _); destruct a; discriminate|]. exists []. split; [reflexivity|]. cbn [length]. lia. }
  destruct G as (hs' & UP & R). exists np, hs'. split; [reflexivity|]. split; [exact UP|].
  assert (ALL : forall h, In h hs' -> ~ hash_of E np h) by (intros h I; exact (check_content E d1 user np (h_file o) hs' h NU Z1 FO CK R I)).
  split; [exact ALL|]. apply ALL. destruct UP as [((a & E1) & _ & ->)|(_ & dr & E1 & L)]; [rewrite E1; apply in_or_app; right; left; reflexivity|].
  destruct hs' as [|x hs'] using rev_ind; [cbn [length] in L; lia|]. rewrite app_assoc in E1. apply app_inj_tail in E1. destruct E1 as (_ & <-). apply in_or_app. right. left. reflexivity.
Qed.

(** At most as many passwords are refused as there are tries; nothing is saved in the preliminary phase or when nothing is to be remembered. *)
Theorem chauthtok_bounds : forall E M d args r d' p s, chauthtok E M d args = (r, d', p, s) -> let o := options (m_conf M) args in
  (length s <= Z.to_nat (h_tries o))%nat /\ (m_prelim M = true \/ h_remember o <= 0 -> d' = d) /\ (h_remember o = 0 -> r = PAM_IGNORE) /\
  (r = PAM_MAXTRIES -> p = None) /\ (enforced M o -> forall q, ~ In (Told q) s).
Proof.
  intros E M d args r d' p s H o. unfold chauthtok in H. fold o in H.
  assert (AB : forall d1 user more k r p s, ask E M d1 user o more k = (r, p, s) -> (length s <= more)%nat /\ (r = PAM_MAXTRIES -> p = None) /\ (enforced M o -> forall q, ~ In (Told q) s)).
  { intros d1 user more. induction more as [|more IH]; intros k r0 p0 s0 A; cbn [ask] in A; [injection A as <- <- <-; cbn [length]; split; [lia|split; [reflexivity|intros _ q []]]|]. destruct (m_tok M k) as (t, np).
    destruct (negb (t =? PAM_SUCCESS) && negb (t =? PAM_TRY_AGAIN)); [injection A as <- <- <-; cbn [length]; split; [lia|split; [reflexivity|intros _ q []]]|].
    destruct np as [np|]; [|destruct (IH _ _ _ _ A) as (I1 & I2); split; [lia|exact I2]].
    destruct (t =? PAM_TRY_AGAIN); [injection A as <- <- <-; cbn [length]; split; [lia|split; [discriminate|intros _ q []]]|].
    destruct (check_old_pass E d1 user np (h_file o) =? PAM_SUCCESS); [injection A as <- <- <-; cbn [length]; split; [lia|split; [discriminate|intros _ q []]]|].
    destruct (negb (m_uid M =? 0) || h_root o || m_expired M) eqn:EN.
    - destruct (ask E M d1 user o more (S k)) as ((r', q'), s') eqn:B. injection A as <- <- <-. destruct (IH _ _ _ _ B) as (I1 & I2 & I3). cbn [length]. split; [lia|]. split; [exact I2|]. intros X q [Y|Y]; [discriminate|exact (I3 X q Y)].
    - injection A as <- <- <-. cbn [length]. split; [lia|]. split; [discriminate|]. intro X. apply enforced_iff in X. congruence. }
  destruct (Z.eqb_spec (h_remember o) 0) as [Z0|NZ]; [injection H as <- <- <- <-; cbn [length]; repeat split; try discriminate; try lia; intros _ q []|].
  destruct (m_user M) as (ur, user). destruct (negb (ur =? PAM_SUCCESS)); [injection H as <- <- <- <-; cbn [length]; repeat split; try reflexivity; try lia; intros _ q []|].
  destruct (m_prelim M); [injection H as <- <- <- <-; cbn [length]; repeat split; try reflexivity; try lia; intros _ q []|].
  destruct (save_old_pass E d user (h_remember o) (h_file o)) as (r1, d1) eqn:S.
  assert (SD : h_remember o <= 0 -> d1 = d). { intro L. destruct (save_cases _ _ _ _ _ _ _ S) as [(X & _)|(_ & X & _)]; [exact X|lia]. }
  destruct (negb (r1 =? PAM_SUCCESS)); [injection H as <- <- <- <-; cbn [length]; repeat split; try reflexivity; try lia; [intros [X|X]; [discriminate|exact (SD X)]|intros _ q []]|].
  destruct (ask E M d1 user o (Z.to_nat (h_tries o)) 0) as ((r2, q), s2) eqn:A. injection H as <- <- <- <-. destruct (AB _ _ _ _ _ _ _ A) as (I1 & I2 & I3).
  repeat split; try assumption; [intros [X|X]; [discriminate|exact (SD X)]|contradiction].
Qed.

(** ** The options *)

(** [P] holds of the last option for which it holds of anything, with the value [v]. *)
Definition last_with (P : cstr -> Z -> Prop) (args : list cstr) (v : Z) : Prop := exists a x b, args = (a ++ x :: b)%list /\ P x v /\ forall y w, In y b -> ~ P y w.
Definition none_with (P : cstr -> Z -> Prop) (args : list cstr) : Prop := forall y w, In y args -> ~ P y w.
(** The low 32 bits of a number, as a signed one. *)
Definition low32 (v n : Z) : Prop := - 2 ^ 31 <= n < 2 ^ 31 /\ exists k, v = n + k * 2 ^ 32.
(** remember=N and retry=N in any case. *)
Definition says_remember (a : cstr) (n : Z) : Prop := exists t v m, Umask_Props.ikey (lit "remember=") a t /\ Umask_Props.number 10 t v /\ low32 v m /\ n = Z.max 0 (Z.min 400 m).
Definition says_retry (a : cstr) (n : Z) : Prop := exists t v m, Umask_Props.ikey (lit "retry=") a t /\ Umask_Props.number 10 t v /\ low32 v m /\ n = if m <? 0 then 1 else m.
(** The last conf= option, or the default. *)
Definition conf_file (args : list cstr) (f : cstr) : Prop :=
  (exists a b, args = (a ++ (lit "conf=" ++ f) :: b)%list /\ forall y t, In y b -> y <> (lit "conf=" ++ t)%list) \/
  ((forall y t, In y args -> y <> (lit "conf=" ++ t)%list) /\ f = lit "/etc/security/pwhistory.conf").
(** A number in the configuration. *)
Definition conf_number (val : option cstr) (dflt n : Z) : Prop :=
  (exists t neg m rest, val = Some t /\ signed 10 t neg m rest /\ low32 (ulong neg m) n) \/
  ((forall t, val = Some t -> forall neg m rest, ~ signed 10 t neg m rest) /\ n = dflt).

Lemma to_int_low : forall v, low32 v (to_int v).
Proof.
  intro v. unfold low32, to_int. pose proof (Z.mod_pos_bound (v + 2 ^ 31) (2 ^ 32)) as B. split; [lia|]. exists ((v + 2 ^ 31) / 2 ^ 32). pose proof (Z.div_mod (v + 2 ^ 31) (2 ^ 32)) as D. lia.
Qed.
Lemma low32_unique : forall v m n, low32 v m -> low32 v n -> m = n.
Proof. intros v m n (A & k & E) (B & j & F). assert (k = j) by lia. subst. lia. Qed.

Lemma scan_spec : forall val dflt, conf_number val dflt (match val with Some v => match scan_u v with Some n => n | None => dflt end | None => dflt end).
Proof.
  intros [v|] dflt; [|right; split; [discriminate|reflexivity]]. unfold scan_u. destruct (strtoul 10 v) as (x, [r|]) eqn:S.
  - apply strtoul_some in S; [|lia]. destruct S as (neg & n & S & X). left. exists v, neg, n, r. split; [reflexivity|]. split; [exact S|]. rewrite <- X. apply to_int_low.
  - apply strtoul_none in S; [|lia]. destruct S as (_ & S). right. split; [|reflexivity]. intros t T. injection T as <-. exact S.
Qed.
Lemma conf_name_spec : forall args, conf_file args (conf_name args).
Proof.
  intro args. unfold conf_name. set (step := fun (f : option cstr) (a : cstr) => match skip_prefix (lit "conf=") a with Some s => Some s | None => f end).
  assert (G : forall f0, match fold_left step args f0 with Some f => (exists a b, args = (a ++ (lit "conf=" ++ f) :: b)%list /\ forall y t, In y b -> y <> (lit "conf=" ++ t)%list) \/ (forall y t, In y args -> y <> (lit "conf=" ++ t)%list) /\ f0 = Some f
    | None => (forall y t, In y args -> y <> (lit "conf=" ++ t)%list) /\ f0 = None end).
  { induction args as [|x args IH] using rev_ind; intro f0; cbn [fold_left]; [destruct f0; auto|]. rewrite fold_left_app. cbn [fold_left]. unfold step at 1.
    destruct (skip_prefix (lit "conf=") x) as [s|] eqn:SK.
    - apply skip_prefix_some in SK. left. exists args, []. split; [rewrite SK; reflexivity|intros y t []].
    - assert (NX : forall t, x <> (lit "conf=" ++ t)%list) by (intros t X; apply (proj1 (skip_prefix_none _ _) SK); exists t; exact X).
      specialize (IH f0). destruct (fold_left step args f0) as [f|].
      + destruct IH as [(a & b & E & A)|(A & B)].
        * left. exists a, (b ++ [x])%list. split; [rewrite E, <- app_assoc; reflexivity|]. intros y t I. apply in_app_or in I. destruct I as [I|[<-|[]]]; [apply A; exact I|apply NX].
        * right. split; [|exact B]. intros y t I. apply in_app_or in I. destruct I as [I|[<-|[]]]; [apply A; exact I|apply NX].
      + destruct IH as (A & B). split; [|exact B]. intros y t I. apply in_app_or in I. destruct I as [I|[<-|[]]]; [apply A; exact I|apply NX]. }
  specialize (G None). destruct (fold_left step args None) as [f|]; [destruct G as [G|(_ & G)]; [left; exact G|discriminate]|]. right. split; [apply G|reflexivity].
Qed.

Lemma conf_file_unique : forall args f g, conf_file args f -> conf_file args g -> f = g.
Proof.
  intros args f g [(a & b & E & A)|(A & ->)] [(a' & b' & E' & A')|(A' & ->)].
  - rewrite E in E'. clear E. revert a' E'. induction a as [|x a IH]; intros [|y a'] E'; cbn [app] in E'.
    + assert (HE : (lit "conf=" ++ f)%list = (lit "conf=" ++ g)%list) by exact (f_equal (fun l => match l with x :: _ => x | [] => [] end) E'). apply app_inv_head in HE. exact HE.
    + exfalso. assert (HB : b = (a' ++ (lit "conf=" ++ g) :: b')%list) by exact (f_equal (@tl _) E'). apply (A (lit "conf=" ++ g)%list g); [rewrite HB; apply in_or_app; right; left; reflexivity|reflexivity].
    + exfalso. assert (HB : (a ++ (lit "conf=" ++ f) :: b)%list = b') by exact (f_equal (@tl _) E'). apply (A' (lit "conf=" ++ f)%list f); [rewrite <- HB; apply in_or_app; right; left; reflexivity|reflexivity].
    + injection E' as _ E'. exact (IH a' E').
  - exfalso. apply (A' (lit "conf=" ++ f)%list f); [rewrite E; apply in_or_app; right; left; reflexivity|reflexivity].
  - exfalso. apply (A (lit "conf=" ++ g)%list g); [rewrite E'; apply in_or_app; right; left; reflexivity|reflexivity].
  - reflexivity.
Qed.

Lemma ikey_word : forall k w a t, Umask_Props.ikey k a t -> caseeq a w = true -> is_prefix (map tolower k) (map tolower w) = true.
Proof.
  intros k w a t (k' & -> & K) C. apply caseeq_iff in C. rewrite map_app, K in C. apply is_prefix_iff. exists (map tolower t). symmetry. exact C.
Qed.
Lemma ikey_two : forall k1 k2 a t1 t2, Umask_Props.ikey k1 a t1 -> Umask_Props.ikey k2 a t2 -> is_prefix (map tolower k1) (map tolower k2) = true \/ is_prefix (map tolower k2) (map tolower k1) = true.
Proof.
  intros k1 k2 a t1 t2 (k1' & E1 & K1) (k2' & E2 & K2). rewrite <- K1, <- K2. rewrite E1 in E2. clear K1 K2 E1. revert k2' E2. induction k1' as [|x k1' IH]; intros k2' E; [left; reflexivity|].
  destruct k2' as [|y k2']; [right; reflexivity|]. cbn [app] in E. injection E as -> E. cbn [map is_prefix]. rewrite Ascii.eqb_refl. apply IH. exact E.
Qed.

Lemma parse_remember : forall a o, (forall n, says_remember a n <-> (exists t, skip_iprefix (lit "remember=") a = Some t) /\ h_remember (parse_option a o) = n) /\
  ((forall n, ~ says_remember a n) -> h_remember (parse_option a o) = h_remember o).
Proof.
  intros a o. assert (K : forall t, Umask_Props.ikey (lit "remember=") a t -> h_remember (parse_option a o) = Z.max 0 (Z.min 400 (to_int (fst (strtol t))))).
  { intros t K. unfold parse_option. destruct (caseeq a (lit "try_first_pass")) eqn:W1; [discriminate (ikey_word _ _ _ _ K W1)|]. destruct (caseeq a (lit "use_first_pass")) eqn:W2; [discriminate (ikey_word _ _ _ _ K W2)|].
    destruct (caseeq a (lit "use_authtok")) eqn:W3; [discriminate (ikey_word _ _ _ _ K W3)|]. destruct (caseeq a (lit "debug")) eqn:W4; [discriminate (ikey_word _ _ _ _ K W4)|].
    apply Umask_Props.ikey_iff in K. rewrite K. cbv zeta. cbn [h_remember]. set (m := to_int (fst (strtol t))). clearbody m. destruct (Z.ltb_spec m 0); [|destruct (Z.ltb_spec 400 m)]; cbn; lia. }
  assert (V : forall t, says_remember a (Z.max 0 (Z.min 400 (to_int (fst (strtol t))))) \/ ~ Umask_Props.ikey (lit "remember=") a t).
  { intro t. destruct (skip_iprefix (lit "remember=") a) as [t'|] eqn:SK.
    - destruct (list_eq_dec ascii_dec t t') as [->|NE]; [|right; intro X; apply Umask_Props.ikey_iff in X; congruence]. left. exists t', (fst (strtol t')), (to_int (fst (strtol t'))).
      split; [apply Umask_Props.ikey_iff; exact SK|]. split; [apply Umask_Props.strtol_number|]. split; [apply to_int_low|reflexivity].
    - right. apply Umask_Props.ikey_none. exact SK. }
  split.
  - intro n. split.
    + intros (t & v & m & KT & NV & LV & ->). split; [exists t; apply Umask_Props.ikey_iff; exact KT|]. rewrite (K t KT). pose proof (Umask_Props.strtol_number t) as SN.
      rewrite (Umask_Props.number_unique 10 t v (fst (strtol t)) ltac:(lia) NV SN) in LV. rewrite (low32_unique _ _ _ LV (to_int_low _)). reflexivity.
    + intros ((t & SK) & <-). apply Umask_Props.ikey_iff in SK. rewrite (K t SK). destruct (V t) as [X|X]; [exact X|contradiction].
  - intro NS. assert (SK : skip_iprefix (lit "remember=") a = None).
    { destruct (skip_iprefix (lit "remember=") a) as [t|] eqn:SK; [|reflexivity]. apply Umask_Props.ikey_iff in SK. destruct (V t) as [X|X]; [destruct (NS _ X)|contradiction]. }
    unfold parse_option. rewrite SK. destruct (caseeq a (lit "try_first_pass")); [reflexivity|]. destruct (caseeq a (lit "use_first_pass")); [reflexivity|]. destruct (caseeq a (lit "use_authtok")); [reflexivity|]. destruct (caseeq a (lit "debug")); [reflexivity|].
    destruct (skip_iprefix (lit "retry=") a); [reflexivity|]. destruct (caseeq a (lit "enforce_for_root")); [reflexivity|]. destruct (skip_iprefix (lit "authtok_type=") a); [reflexivity|]. destruct (skip_iprefix (lit "file=") a) as [[|c s]|]; [reflexivity| |reflexivity].
    destruct (Ascii.eqb c c_slash); reflexivity.
Qed.
Lemma parse_retry : forall a o, (forall n, says_retry a n <-> (exists t, skip_iprefix (lit "retry=") a = Some t) /\ h_tries (parse_option a o) = n) /\
  ((forall n, ~ says_retry a n) -> h_tries (parse_option a o) = h_tries o).
Proof.
  intros a o. assert (K : forall t, Umask_Props.ikey (lit "retry=") a t -> h_tries (parse_option a o) = if to_int (fst (strtol t)) <? 0 then 1 else to_int (fst (strtol t))).
  { intros t K. unfold parse_option. destruct (caseeq a (lit "try_first_pass")) eqn:W1; [discriminate (ikey_word _ _ _ _ K W1)|]. destruct (caseeq a (lit "use_first_pass")) eqn:W2; [discriminate (ikey_word _ _ _ _ K W2)|].
    destruct (caseeq a (lit "use_authtok")) eqn:W3; [discriminate (ikey_word _ _ _ _ K W3)|]. destruct (caseeq a (lit "debug")) eqn:W4; [discriminate (ikey_word _ _ _ _ K W4)|].
    destruct (skip_iprefix (lit "remember=") a) as [u|] eqn:SR; [apply Umask_Props.ikey_iff in SR; destruct (ikey_two _ _ _ _ _ K SR) as [X|X]; discriminate X|].
    apply Umask_Props.ikey_iff in K. rewrite K. reflexivity. }
  assert (V : forall t, says_retry a (if to_int (fst (strtol t)) <? 0 then 1 else to_int (fst (strtol t))) \/ ~ Umask_Props.ikey (lit "retry=") a t).
  { intro t. destruct (skip_iprefix (lit "retry=") a) as [t'|] eqn:SK.
    - destruct (list_eq_dec ascii_dec t t') as [->|NE]; [|right; intro X; apply Umask_Props.ikey_iff in X; congruence]. left. exists t', (fst (strtol t')), (to_int (fst (strtol t'))).
      split; [apply Umask_Props.ikey_iff; exact SK|]. split; [apply Umask_Props.strtol_number|]. split; [apply to_int_low|reflexivity].
    - right. apply Umask_Props.ikey_none. exact SK. }
  split.
  - intro n. split.
    + intros (t & v & m & KT & NV & LV & ->). split; [exists t; apply Umask_Props.ikey_iff; exact KT|]. rewrite (K t KT). pose proof (Umask_Props.strtol_number t) as SN.
      rewrite (Umask_Props.number_unique 10 t v (fst (strtol t)) ltac:(lia) NV SN) in LV. rewrite (low32_unique _ _ _ LV (to_int_low _)). reflexivity.
    + intros ((t & SK) & <-). apply Umask_Props.ikey_iff in SK. rewrite (K t SK). destruct (V t) as [X|X]; [exact X|contradiction].
  - intro NS. assert (SK : skip_iprefix (lit "retry=") a = None).
    { destruct (skip_iprefix (lit "retry=") a) as [t|] eqn:SK; [|reflexivity]. apply Umask_Props.ikey_iff in SK. destruct (V t) as [X|X]; [destruct (NS _ X)|contradiction]. }
    unfold parse_option. rewrite SK. destruct (caseeq a (lit "try_first_pass")); [reflexivity|]. destruct (caseeq a (lit "use_first_pass")); [reflexivity|]. destruct (caseeq a (lit "use_authtok")); [reflexivity|]. destruct (caseeq a (lit "debug")); [reflexivity|].
    destruct (skip_iprefix (lit "remember=") a); [reflexivity|]. destruct (caseeq a (lit "enforce_for_root")); [reflexivity|]. destruct (skip_iprefix (lit "authtok_type=") a); [reflexivity|]. destruct (skip_iprefix (lit "file=") a) as [[|c s]|]; [reflexivity| |reflexivity].
    destruct (Ascii.eqb c c_slash); reflexivity.
Qed.
Lemma parse_root : forall a o, h_root (parse_option a o) = true <-> h_root o = true \/ map tolower a = lit "enforce_for_root".
Proof.
  intros a o. assert (K : map tolower a = lit "enforce_for_root" -> forall w, map tolower w <> lit "enforce_for_root" -> caseeq a w = false).
  { intros E w N. destruct (caseeq a w) eqn:C; [|reflexivity]. apply caseeq_iff in C. congruence. }
  assert (P : forall k t, map tolower a = lit "enforce_for_root" -> Umask_Props.ikey k a t -> is_prefix (map tolower k) (lit "enforce_for_root") = true).
  { intros k t E (k' & A & KK). rewrite <- E, A, map_app, KK. apply is_prefix_iff. eexists. reflexivity. }
  assert (T : map tolower a = lit "enforce_for_root" -> h_root (parse_option a o) = true).
  { intro E. unfold parse_option. rewrite !(K E) by discriminate. destruct (skip_iprefix (lit "remember=") a) as [t|] eqn:S1; [apply Umask_Props.ikey_iff in S1; discriminate (P _ _ E S1)|].
    destruct (skip_iprefix (lit "retry=") a) as [t|] eqn:S2; [apply Umask_Props.ikey_iff in S2; discriminate (P _ _ E S2)|].
    assert (C : caseeq a (lit "enforce_for_root") = true) by (apply caseeq_iff; exact E). rewrite C. reflexivity. }
  split.
  - intro H. unfold parse_option in H. destruct (caseeq a (lit "try_first_pass")); [left; exact H|]. destruct (caseeq a (lit "use_first_pass")); [left; exact H|]. destruct (caseeq a (lit "use_authtok")); [left; exact H|]. destruct (caseeq a (lit "debug")); [left; exact H|].
    destruct (skip_iprefix (lit "remember=") a); [left; exact H|]. destruct (skip_iprefix (lit "retry=") a); [left; exact H|]. destruct (caseeq a (lit "enforce_for_root")) eqn:C; [right; apply caseeq_iff in C; exact C|].
    destruct (skip_iprefix (lit "authtok_type=") a); [left; exact H|]. destruct (skip_iprefix (lit "file=") a) as [[|c s]|]; [left; exact H| |left; exact H]. destruct (Ascii.eqb c c_slash); left; exact H.
  - intros [H|H]; [|apply T; exact H]. unfold parse_option. destruct (caseeq a (lit "try_first_pass")); [exact H|]. destruct (caseeq a (lit "use_first_pass")); [exact H|]. destruct (caseeq a (lit "use_authtok")); [exact H|]. destruct (caseeq a (lit "debug")); [exact H|].
    destruct (skip_iprefix (lit "remember=") a); [exact H|]. destruct (skip_iprefix (lit "retry=") a); [exact H|]. destruct (caseeq a (lit "enforce_for_root")); [reflexivity|].
    destruct (skip_iprefix (lit "authtok_type=") a); [exact H|]. destruct (skip_iprefix (lit "file=") a) as [[|c s]|]; [exact H| |exact H]. destruct (Ascii.eqb c c_slash); exact H.
Qed.
(** An absolute file= sets the file. *)
Definition says_file (a f : cstr) : Prop := Umask_Props.ikey (lit "file=") a f /\ exists r, f = c_slash :: r.
Lemma parse_file : forall a o, (forall f, says_file a f -> h_file (parse_option a o) = Some f) /\ ((forall f, ~ says_file a f) -> h_file (parse_option a o) = h_file o).
Proof.
  intros a o. split.
  - intros f (K & r & E). unfold parse_option. destruct (caseeq a (lit "try_first_pass")) eqn:W1; [discriminate (ikey_word _ _ _ _ K W1)|]. destruct (caseeq a (lit "use_first_pass")) eqn:W2; [discriminate (ikey_word _ _ _ _ K W2)|].
    destruct (caseeq a (lit "use_authtok")) eqn:W3; [discriminate (ikey_word _ _ _ _ K W3)|]. destruct (caseeq a (lit "debug")) eqn:W4; [discriminate (ikey_word _ _ _ _ K W4)|]. destruct (caseeq a (lit "enforce_for_root")) eqn:W5; [discriminate (ikey_word _ _ _ _ K W5)|].
    destruct (skip_iprefix (lit "remember=") a) as [u|] eqn:S1; [apply Umask_Props.ikey_iff in S1; destruct (ikey_two _ _ _ _ _ K S1) as [X|X]; discriminate X|].
    destruct (skip_iprefix (lit "retry=") a) as [u|] eqn:S2; [apply Umask_Props.ikey_iff in S2; destruct (ikey_two _ _ _ _ _ K S2) as [X|X]; discriminate X|].
    destruct (skip_iprefix (lit "authtok_type=") a) as [u|] eqn:S3; [apply Umask_Props.ikey_iff in S3; destruct (ikey_two _ _ _ _ _ K S3) as [X|X]; discriminate X|].
    apply Umask_Props.ikey_iff in K. rewrite K, E. rewrite Ascii.eqb_refl. reflexivity.
  - intro NS. unfold parse_option. destruct (caseeq a (lit "try_first_pass")); [reflexivity|]. destruct (caseeq a (lit "use_first_pass")); [reflexivity|]. destruct (caseeq a (lit "use_authtok")); [reflexivity|]. destruct (caseeq a (lit "debug")); [reflexivity|].
    destruct (skip_iprefix (lit "remember=") a); [reflexivity|]. destruct (skip_iprefix (lit "retry=") a); [reflexivity|]. destruct (caseeq a (lit "enforce_for_root")); [reflexivity|]. destruct (skip_iprefix (lit "authtok_type=") a); [reflexivity|].
    destruct (skip_iprefix (lit "file=") a) as [[|c s]|] eqn:SF; [reflexivity| |reflexivity]. destruct (Ascii.eqb_spec c c_slash) as [->|N]; [|reflexivity]. exfalso. apply (NS (c_slash :: s)). split; [apply Umask_Props.ikey_iff; exact SF|]. exists s. reflexivity.
Qed.

Lemma fold_last : forall (A : Type) (get : opts -> A) (P : cstr -> A -> Prop) args o,
  (forall a o, (forall v, P a v -> get (parse_option a o) = v) /\ ((forall v, ~ P a v) -> get (parse_option a o) = get o)) ->
  (forall a, (exists v, P a v) \/ forall v, ~ P a v) ->
  (exists a x b v, args = (a ++ x :: b)%list /\ P x v /\ (forall y w, In y b -> ~ P y w) /\ get (fold_left (fun o a => parse_option a o) args o) = v) \/
  (forall y w, In y args -> ~ P y w) /\ get (fold_left (fun o a => parse_option a o) args o) = get o.
Proof.
  intros A get P args o S D. induction args as [|x args IH] using rev_ind; [right; split; [intros y w []|reflexivity]|]. rewrite fold_left_app. cbn [fold_left].
  set (o1 := fold_left (fun o a => parse_option a o) args o) in *. destruct (S x o1) as (S1 & S2). destruct (D x) as [(v & X)|X].
  - left. exists args, x, [], v. split; [reflexivity|]. split; [exact X|]. split; [intros y w []|apply S1; exact X].
  - rewrite (S2 X). destruct IH as [(a & y & b & v & -> & Y & N & G)|(N & G)].
    + left. exists a, y, (b ++ [x])%list, v. split; [rewrite <- app_assoc; reflexivity|]. split; [exact Y|]. split; [|exact G]. intros z w I. apply in_app_or in I. destruct I as [I|[<-|[]]]; [apply N; exact I|apply X].
    + right. split; [|exact G]. intros z w I. apply in_app_or in I. destruct I as [I|[<-|[]]]; [apply N; exact I|apply X].
Qed.

(** What the options mean: the last one of each kind, else the configuration file, else 10 passwords, one try, not for root, the usual file. *)
Theorem options_meaning : forall conf args cf, conf_file args cf -> let o := options conf args in
  (last_with says_remember args (h_remember o) \/ none_with says_remember args /\ conf_number (conf cf (lit "remember")) 10 (h_remember o)) /\
  (last_with says_retry args (h_tries o) \/ none_with says_retry args /\ conf_number (conf cf (lit "retry")) 1 (h_tries o)) /\
  (h_root o = true <-> conf cf (lit "enforce_for_root") <> None \/ exists a, In a args /\ map tolower a = lit "enforce_for_root") /\
  ((exists a x b f, args = (a ++ x :: b)%list /\ says_file x f /\ (forall y w, In y b -> ~ says_file y w) /\ h_file o = Some f) \/
   (forall y w, In y args -> ~ says_file y w) /\
     (forall r, conf cf (lit "file") = Some (c_slash :: r) -> h_file o = Some (c_slash :: r)) /\ ((forall r, conf cf (lit "file") <> Some (c_slash :: r)) -> h_file o = None)).
Proof.
  intros conf args cf CF o. rewrite (conf_file_unique _ _ _ CF (conf_name_spec args)). clear cf CF.
  unfold o, options. set (o0 := parse_config_file conf args (mkOpts 10 1 false None)).
  assert (DR : forall a, (exists v, says_remember a v) \/ forall v, ~ says_remember a v).
  { intro a. destruct (skip_iprefix (lit "remember=") a) as [t|] eqn:SK; [left; exists (h_remember (parse_option a o0)); apply (parse_remember a o0); split; [exists t; exact SK|reflexivity]|].
    right. intros v (t & w & m & K & _). revert K. apply Umask_Props.ikey_none. exact SK. }
  assert (DT : forall a, (exists v, says_retry a v) \/ forall v, ~ says_retry a v).
  { intro a. destruct (skip_iprefix (lit "retry=") a) as [t|] eqn:SK; [left; exists (h_tries (parse_option a o0)); apply (parse_retry a o0); split; [exists t; exact SK|reflexivity]|].
    right. intros v (t & w & m & K & _). revert K. apply Umask_Props.ikey_none. exact SK. }
  assert (DF : forall a, (exists f, says_file a f) \/ forall f, ~ says_file a f).
  { intro a. destruct (skip_iprefix (lit "file=") a) as [[|c t]|] eqn:SK.
    - right. intros f (K & r & ->). apply Umask_Props.ikey_iff in K. congruence.
    - destruct (Ascii.eqb_spec c c_slash) as [->|N]; [left; exists (c_slash :: t); split; [apply Umask_Props.ikey_iff; exact SK|exists t; reflexivity]|]. right. intros f (K & r & ->). apply Umask_Props.ikey_iff in K. congruence.
    - right. intros f (K & _). revert K. apply Umask_Props.ikey_none. exact SK. }
  split; [|split; [|split]].
  - destruct (fold_last Z h_remember says_remember args o0) as [(a & x & b & v & E & X & N & G)|(N & G)].
    + intros a o1. destruct (parse_remember a o1) as (P1 & P2). split; [intros v X; apply P1 in X; apply X|exact P2].
    + exact DR.
    + left. exists a, x, b. rewrite G. auto.
    + right. split; [exact N|]. rewrite G. apply (scan_spec (conf (conf_name args) (lit "remember")) 10).
  - destruct (fold_last Z h_tries says_retry args o0) as [(a & x & b & v & E & X & N & G)|(N & G)].
    + intros a o1. destruct (parse_retry a o1) as (P1 & P2). split; [intros v X; apply P1 in X; apply X|exact P2].
    + exact DT.
    + left. exists a, x, b. rewrite G. auto.
    + right. split; [exact N|]. rewrite G. apply (scan_spec (conf (conf_name args) (lit "retry")) 1).
  - assert (B : h_root o0 = true <-> conf (conf_name args) (lit "enforce_for_root") <> None). { unfold o0, parse_config_file. cbn [h_root]. destruct (conf (conf_name args) (lit "enforce_for_root")); split; congruence. }
    rewrite <- B. clearbody o0. clear. induction args as [|x args IH] using rev_ind; cbn [fold_left].
    { split; [auto|]. intros [H|(a & [] & _)]. exact H. }
    rewrite fold_left_app. cbn [fold_left]. rewrite parse_root, IH. split.
    + intros [[H|(a & I & X)]|H]; [auto|right; exists a; split; [apply in_or_app; left; exact I|exact X]|right; exists x; split; [apply in_or_app; right; left; reflexivity|exact H]].
    + intros [H|(a & I & X)]; [auto|]. apply in_app_or in I. destruct I as [I|[<-|[]]]; [left; right; exists a; auto|right; exact X].
  - destruct (fold_last (option cstr) h_file (fun a v => exists f, v = Some f /\ says_file a f) args o0) as [(a & x & b & v & E & (f & -> & X) & N & G)|(N & G)].
    + intros a o1. destruct (parse_file a o1) as (P1 & P2). split; [intros v (f & -> & X); apply P1; exact X|]. intro X. apply P2. intros f F. apply (X (Some f)). exists f. auto.
    + intro a. destruct (DF a) as [(f & F)|F]; [left; exists (Some f), f; auto|right; intros v (f & _ & X); exact (F f X)].
    + left. exists a, x, b, f. split; [exact E|]. split; [exact X|]. split; [|exact G]. intros y w I Y. apply (N y (Some w) I). exists w. auto.
    + right. split; [intros y w I Y; apply (N y (Some w) I); exists w; auto|]. rewrite G. unfold o0, parse_config_file. cbn [h_file]. split.
      * intros r ->. rewrite Ascii.eqb_refl. reflexivity.
      * intro X. destruct (conf (conf_name args) (lit "file")) as [[|c v]|]; [reflexivity| |reflexivity]. destruct (Ascii.eqb_spec c c_slash) as [->|NC]; [destruct (X v); reflexivity|reflexivity].
Qed.
Example options_meaning_example : options (fun f k => if streq k (lit "remember") then Some (lit " 7") else if streq k (lit "file") then Some (lit "/o") else None) [lit "Retry=-3"; lit "ENFORCE_for_root"; lit "file=x"; lit "use_authtok"] = mkOpts 7 1 true (Some (lit "/o")) /\
  conf_file [lit "Retry=-3"; lit "ENFORCE_for_root"; lit "file=x"; lit "use_authtok"] (lit "/etc/security/pwhistory.conf").
Proof. split; [vm_compute; reflexivity|]. right. split; [|reflexivity]. intros y t I E. subst y. cbn in I. repeat (destruct I as [I|I]; [discriminate|]). destruct I. Qed.

Definition ex_menv := mkMenv (fun _ _ => None) (PAM_SUCCESS, lit "ann") false false 1000
  (fun k => match k with O => (PAM_SUCCESS, Some (lit "3")) | S O => (PAM_TRY_AGAIN, None) | _ => (PAM_SUCCESS, Some (lit "4")) end).
Definition ex_args : list cstr := [lit "remember=2"; lit "retry=3"].
Lemma ex_honest : honest ex_menv.
Proof. intros [|[|k]] p H; cbn in H; congruence. Qed.
Example new_password_unused_example : exists d', chauthtok ex_env ex_menv ex_disk ex_args = (PAM_SUCCESS, d', Some (lit "4"), [Refused (lit "3")]) /\
  options (m_conf ex_menv) ex_args = mkOpts 2 3 false None /\ enforced ex_menv (mkOpts 2 3 false None) /\ honest ex_menv.
Proof. exists ex_saved. split; [vm_compute; reflexivity|]. split; [vm_compute; reflexivity|]. split; [left; discriminate|exact ex_honest]. Qed.
Example chauthtok_bounds_example : fst (fst (fst (chauthtok ex_env ex_menv ex_disk [lit "retry=1"]))) = PAM_MAXTRIES.
Proof. vm_compute. reflexivity. Qed.

(** A number that the option remember= gives is kept within 0 and 400 only after it was cut to 32 bits: 2^32 switches the module off. *)
Theorem large_remember_refuted : exists E M d v, long_of false v = 4294967296 /\ signed 10 (lit "4294967296") false v [] /\
  chauthtok E M d [(lit "remember=" ++ lit "4294967296")%list] = (PAM_IGNORE, d, None, []).
Proof.
  exists ex_env, ex_menv, ex_disk, 4294967296. split; [reflexivity|]. split; [|vm_compute; reflexivity]. exists [], [], (lit "4294967296"). split; [reflexivity|]. split; [reflexivity|]. split; [auto|].
  split; [|left; reflexivity]. split; [discriminate|]. split; [|reflexivity]. intros c I. cbn in I. repeat (destruct I as [<-|I]; [reflexivity|]). destruct I.
Qed.
(** In the configuration file the number is not limited: 2^32 - 1 becomes -1, the module goes on, but nothing is saved and the current password may be used again. *)
Theorem conf_remember_refuted : exists E M d user cur np, current E user cur /\ plain cur /\ m_conf M (lit "/etc/security/pwhistory.conf") (lit "remember") = Some (lit "4294967295") /\
  m_user M = (PAM_SUCCESS, user) /\ m_uid M <> 0 /\ e_crypt E np cur = Some cur /\ chauthtok E M d [] = (PAM_SUCCESS, d, Some np, []).
Proof.
  exists ex_env, (mkMenv (fun _ k => if streq k (lit "remember") then Some (lit "4294967295") else None) (PAM_SUCCESS, lit "ann") false false 1000 (fun _ => (PAM_SUCCESS, Some (lit "3")))),
    ex_disk, (lit "ann"), (lit "h3"), (lit "3").
  split; [exact ex_current|]. split; [apply ex_plain|]. split; [reflexivity|]. split; [reflexivity|]. split; [discriminate|]. split; [reflexivity|]. vm_compute. reflexivity.
Qed.

Print Assumptions accepted_not_recorded.
Print Assumptions recorded_refused.
Print Assumptions unreadable_refuses_refuted.
Print Assumptions save_frame.
Print Assumptions save_updates.
Print Assumptions history_bounded.
Print Assumptions saved_refused.
Print Assumptions success_saves_refuted.
Print Assumptions saved_once_refuted.
Print Assumptions other_records_kept_refuted.
Print Assumptions comma_refused_refuted.
Print Assumptions new_password_unused.
Print Assumptions chauthtok_bounds.
Print Assumptions options_meaning.
Print Assumptions large_remember_refuted.
Print Assumptions conf_remember_refuted.
