(** Theorems about pam_ftp and the modules that decide by one question. *)
From Coq Require Import String Ascii List Arith ZArith Bool Lia.
From Verif Require Import Base Str_Model Str_Facts Opt_Model Opt_Facts Ctl_Model Modutil_Model Modutil_Props Flconf_Props Ftp_Model.
Import ListNotations.

(** ** pam_ftp *)
(** A name is one of a list with commas. *)
Definition listed (name l : cstr) : Prop := name <> [] /\ ~ In ","%char name /\ exists a b, l = (a ++ name ++ b)%list /\ (a = [] \/ exists a', a = (a' ++ [","%char])%list) /\ (b = [] \/ exists b', b = ","%char :: b').
(** The first name of a list, after commas. *)
Definition first_name (l n : cstr) : Prop := n <> [] /\ ~ In ","%char n /\ exists p b, l = (p ++ n ++ b)%list /\ (forall c, In c p -> c = ","%char) /\ (b = [] \/ exists b', b = ","%char :: b').

Lemma snoc_or : forall p : cstr, p = [] \/ exists q c, p = (q ++ [c])%list.
Proof. intro p. destruct p as [|a p]; [left; reflexivity|]. right. destruct (@exists_last _ (a :: p)) as (q & c & E); [discriminate|]. exists q, c. exact E. Qed.
Lemma words_listed : forall l ws, words (lit ",") l ws -> forall n, In n ws <-> listed n l.
Proof.
  assert (SEP : forall w, no_sep (lit ",") w <-> ~ In ","%char w). { intro w. unfold no_sep. split; [intros H I; exact (H _ I (or_introl eq_refl))|]. intros H c I [<-|[]]. exact (H I). }
  assert (ALL : forall p, all_sep (lit ",") p -> forall c, In c p -> c = ","%char). { intros p H c I. destruct (H c I) as [<-|[]]. reflexivity. }
  (* a name in what starts with commas is after them *)
  assert (SK : forall p s n, all_sep (lit ",") p -> listed n (p ++ s) -> listed n s).
  { induction p as [|c p IH]; intros s n P L; [exact L|]. apply IH; [intros x I; apply P; right; exact I|]. destruct L as (N & NC & a & b & E & A & B). split; [exact N|]. split; [exact NC|]. rewrite (ALL _ P c (or_introl eq_refl)) in E. destruct a as [|x a].
    - exfalso. destruct n as [|y n]; [contradiction|]. cbn [app] in E. injection E as <- _. apply NC. left. reflexivity.
    - cbn [app] in E. injection E as <- E. exists a, b. split; [exact E|]. split; [|exact B]. destruct A as [A|(a' & A)]; [discriminate|]. destruct a' as [|y a']; cbn [app] in A; apply (f_equal (@List.tl ascii)) in A; cbn [List.tl] in A; [left; exact A|right; exists a'; exact A]. }
  assert (PRE : forall p s n, all_sep (lit ",") p -> listed n s -> listed n (p ++ s)).
  { intros p s n P (N & NC & a & b & -> & A & B). split; [exact N|]. split; [exact NC|]. exists (p ++ a)%list, b. split; [rewrite app_assoc; reflexivity|]. split; [|exact B]. destruct A as [->|(a' & ->)]; [|right; exists (p ++ a')%list; rewrite app_assoc; reflexivity].
    rewrite app_nil_r. destruct (snoc_or p) as [->|(q & c & ->)]; [left; reflexivity|]. right. exists q. rewrite (ALL _ P c); [reflexivity|]. apply in_or_app. right. left. reflexivity. }
  (* a word and what is after the comma *)
  assert (ONE : forall w n, ~ In ","%char w -> listed n w -> n = w).
  { intros w n NW (N & NC & a & b & -> & A & B). destruct A as [->|(a' & ->)]; [|exfalso; apply NW; apply in_or_app; left; apply in_or_app; right; left; reflexivity]. destruct B as [->|(b' & ->)]; [rewrite app_nil_r; reflexivity|]. exfalso. apply NW. apply in_or_app. right. apply in_or_app. right. left. reflexivity. }
  assert (TWO : forall w s n, ~ In ","%char w -> listed n (w ++ ","%char :: s) -> n = w \/ listed n s).
  { intros w s n NW (N & NC & a & b & E & A & B). apply app_eq_app in E. destruct E as (l & [(E1 & E2)|(E1 & E2)]).
    - (* w = a ++ l: the name begins within w *)
      destruct A as [->|(a' & ->)]; [|exfalso; apply NW; rewrite E1; apply in_or_app; left; apply in_or_app; right; left; reflexivity]. cbn [app] in E1. subst l. left.
      apply app_eq_app in E2. destruct E2 as (l & [(E2 & E3)|(E2 & E3)]).
      + destruct l as [|x l]; [rewrite app_nil_r in E2; auto|]. cbn [app] in E3. injection E3 as <- _. exfalso. apply NC. rewrite E2. apply in_or_app. right. left. reflexivity.
      + destruct B as [->|(b' & ->)]; [destruct l; discriminate|]. destruct l as [|x l]; [rewrite app_nil_r in E2; auto|]. cbn [app] in E3. injection E3 as <- _. exfalso. apply NW. rewrite E2. apply in_or_app. right. left. reflexivity.
    - (* a = w ++ l: after it *)
      right. split; [exact N|]. split; [exact NC|]. destruct l as [|x l]; cbn [app] in E2; [exfalso; destruct n as [|y n]; [contradiction|]; cbn [app] in E2; injection E2 as <- _; apply NC; left; reflexivity|].
      injection E2 as <- E2. exists l, b. split; [exact E2|]. split; [|exact B]. destruct (snoc_or l) as [->|(q & z & ->)]; [left; reflexivity|]. right. exists q. f_equal. f_equal. destruct A as [A|(a' & A)]; [rewrite A in E1; destruct w; discriminate|].
      rewrite A in E1. replace (w ++ ","%char :: q ++ [z])%list with ((w ++ ","%char :: q) ++ [z])%list in E1 by (rewrite <- app_assoc; reflexivity). apply app_inj_tail in E1. destruct E1 as (_ & <-). reflexivity. }
  intros l ws W. induction W as [p P|p w P N NS|p w x s ws P N NS X W IH]; intro n.
  - split; [intros []|]. intro L. exfalso. rewrite <- (app_nil_r p) in L. apply SK in L; [|exact P]. destruct L as (N & _ & a & b & E & _). destruct a; [|discriminate]. destruct n; [contradiction|discriminate].
  - apply (proj1 (SEP w)) in NS. split.
    + intros [<-|[]]. apply PRE; [exact P|]. split; [exact N|]. split; [exact NS|]. exists [], []. rewrite app_nil_r. auto.
    + intro L. apply SK in L; [|exact P]. left. symmetry. apply ONE; assumption.
  - apply (proj1 (SEP w)) in NS. destruct X as [<-|[]]. split.
    + intros [<-|I]; apply PRE; try exact P.
      * split; [exact N|]. split; [exact NS|]. exists [], (","%char :: s). split; [reflexivity|]. split; [left; reflexivity|right; eexists; reflexivity].
      * apply IH in I. destruct I as (N' & NC & a & b & -> & A & B). split; [exact N'|]. split; [exact NC|]. exists (w ++ ","%char :: a)%list, b. split; [rewrite <- app_assoc; reflexivity|]. split; [|exact B]. right. destruct A as [->|(a' & ->)]; [exists w; reflexivity|exists (w ++ ","%char :: a')%list; rewrite <- app_assoc; reflexivity].
    + intro L. apply SK in L; [|exact P]. apply TWO in L; [|exact NS]. destruct L as [->|L]; [left; reflexivity|right; apply IH; exact L].
Qed.
Definition anonymous (users : option cstr) (name : cstr) : Prop := match users with Some (c :: l) => listed name (c :: l) | _ => name = lit "ftp" \/ name = lit "anonymous" end.
(** The account of anonymous users. *)
Definition guest (users : option cstr) (u : cstr) : Prop := match users with Some (c :: l) => c <> ","%char -> first_name (c :: l) u | _ => u = lit "ftp" end.
Lemma lookup_spec : forall alloc name users,
  match lookup alloc name users with
  | Some (Some u) => alloc = true /\ anonymous users name /\ guest users u
  | Some None => alloc = false /\ anonymous users name
  | None => ~ anonymous users name \/ alloc = false
  end.
Proof.
  assert (DEF : forall (alloc : bool) (name : cstr), match (if streq (lit "ftp") name || streq (lit "anonymous") name then Some (if alloc then Some (lit "ftp") else None) else None) with
    | Some (Some u) => alloc = true /\ (name = lit "ftp" \/ name = lit "anonymous") /\ u = lit "ftp" | Some None => alloc = false /\ (name = lit "ftp" \/ name = lit "anonymous") | None => ~ (name = lit "ftp" \/ name = lit "anonymous") \/ alloc = false end).
  { intros alloc name. destruct (streq (lit "ftp") name) eqn:E1; cbn [orb]; [apply streq_eq in E1; destruct alloc; auto|]. destruct (streq (lit "anonymous") name) eqn:E2; [apply streq_eq in E2; destruct alloc; auto|]. left. intros [X|X]; subst name; rewrite streq_refl in *; discriminate. }
  intros alloc name users. unfold lookup, anonymous, guest. destruct users as [[|c l]|]; try apply DEF. clear DEF.
  pose proof (words_listed _ _ (strtoks_words (lit ",") (c :: l))) as W. set (l' := c :: l) in *. destruct alloc; cbn [andb]; [|right; reflexivity].
  destruct (existsb (streq name) (strtoks (lit ",") l')) eqn:E.
  - apply existsb_exists in E. destruct E as (n & I & E). apply streq_eq in E. subst n. apply W in I. split; [reflexivity|]. split; [exact I|]. intro NC. destruct (span (among (lit ",")) l') as [p r] eqn:SP.
    assert (P : p = [] /\ r = l'). { unfold l' in SP. cbn [span] in SP. assert (A : among (lit ",") c = false) by (destruct (among (lit ",") c) eqn:A; [apply among_iff in A; destruct A as [<-|[]]; contradiction|reflexivity]). rewrite A in SP. injection SP as <- <-. auto. }
    destruct P as (-> & ->). cbn [app]. destruct (span (fun x => negb (among (lit ",") x)) l') as [n b] eqn:SN. cbn [fst]. apply span_app in SN. destruct SN as (S1 & S2 & S3). split; [|split].
    + intros ->. cbn [app] in S1. destruct S3 as [->|(x & b' & -> & X)]; [unfold l' in S1; discriminate|]. unfold l' in S1. injection S1 as <- _. apply negb_false_iff, among_iff in X. destruct X as [<-|[]]. contradiction.
    + intro J. rewrite forallb_forall in S2. specialize (S2 _ J). discriminate.
    + exists [], b. split; [exact S1|]. split; [intros x []|]. destruct S3 as [->|(x & b' & -> & X)]; [left; reflexivity|]. right. exists b'. apply negb_false_iff, among_iff in X. destruct X as [<-|[]]. reflexivity.
  - left. intro I. apply W in I. assert (X : existsb (streq name) (strtoks (lit ",") l') = true) by (apply existsb_exists; exists name; split; [exact I|apply streq_refl]). congruence.
Qed.
Definition gives_users (a : cstr) (x : option cstr) : Prop := exists s, x = Some s /\ a = (lit "users=" ++ s)%list.
(** C99: the options of pam_ftp. *)
Theorem ftp_settings : forall args, latest gives_users args None (f_users (ftp_parse args)) /\ (f_ignore (ftp_parse args) = true <-> In (lit "ignore") args).
Proof.
  intro args. unfold ftp_parse. split.
  - apply (latest_fold gives_users ftp_step f_users args) with (t := mkFtp false None). intros t a _. unfold ftp_step. destruct (streq a (lit "debug")) eqn:E1; [apply streq_eq in E1; subst; right; split; [intros y (s & _ & X); discriminate|reflexivity]|].
    destruct (streq a (lit "ignore")) eqn:E2; [apply streq_eq in E2; subst; right; split; [intros y (s & _ & X); discriminate|reflexivity]|]. destruct (skip_prefix (lit "users=") a) as [s|] eqn:E3; [left; exists s; split; [reflexivity|apply skip_prefix_some; exact E3]|].
    right. split; [|reflexivity]. intros y (s & _ & X). apply skip_prefix_some in X. congruence.
  - assert (G : forall args o, f_ignore (fold_left ftp_step args o) = true <-> f_ignore o = true \/ In (lit "ignore") args).
    { clear. induction args as [|a args IH]; intro o; cbn [fold_left In]; [tauto|]. rewrite IH. assert (Q : f_ignore (ftp_step o a) = true <-> f_ignore o = true \/ a = lit "ignore").
      { unfold ftp_step. destruct (streq a (lit "debug")) eqn:E1; [apply streq_eq in E1; subst; split; [tauto|]; intros [H|H]; [exact H|discriminate]|]. destruct (streq a (lit "ignore")) eqn:E2; [apply streq_eq in E2; subst; cbn [f_ignore]; tauto|]. assert (N : a <> lit "ignore") by (intros ->; rewrite streq_refl in E2; discriminate). destruct (skip_prefix (lit "users=") a); cbn [f_ignore]; tauto. }
      rewrite Q. tauto. }
    rewrite G. cbn [f_ignore]. split; [intros [H|H]; [discriminate|exact H]|auto].
Qed.

(** The items afterwards. *)
Definition same_but_user (a b : items) : Prop := i_ruser a = i_ruser b /\ i_rhost a = i_rhost b /\ i_authtok a = i_authtok b.
Definition same_but_token (a b : items) : Prop := i_user a = i_user b /\ i_ruser a = i_ruser b /\ i_rhost a = i_rhost b.
(** C99: success exactly for anonymous users who answered; then PAM_USER is the account for them and PAM_AUTHTOK is not changed. Everybody else is asked for a password, which
    becomes PAM_AUTHTOK for the modules after this one, no other item is changed, and the result is not success. *)
Theorem ftp_decides : forall E args s r, ftp_authenticate E args s = Ok r -> let users := f_users (ftp_parse args) in
  (fr_rc r = PAM_SUCCESS <-> fst (fe_user E) = PAM_SUCCESS /\ anonymous users (snd (fe_user E)) /\ fe_alloc E = true /\ fe_set E IUser = true /\ fst (fe_conv E AskEmail) = PAM_SUCCESS) /\
  (fr_rc r = PAM_SUCCESS -> exists u, i_user (fr_items r) = Some u /\ guest users u /\ i_authtok (fr_items r) = i_authtok s) /\
  (fr_asked r = Some AskEmail -> anonymous users (snd (fe_user E))) /\
  (fst (fe_user E) = PAM_SUCCESS -> ~ anonymous users (snd (fe_user E)) -> same_but_token s (fr_items r) /\ fr_asked r = Some (AskPassword (snd (fe_user E))) /\
     (fst (fe_conv E (AskPassword (snd (fe_user E)))) = PAM_SUCCESS -> fr_rc r = PAM_AUTH_ERR /\ (fe_set E IAuthtok = true -> i_authtok (fr_items r) = snd (fe_conv E (AskPassword (snd (fe_user E))))))).
Proof.
  intros E args s r H users. unfold ftp_authenticate in H. cbv zeta in H. destruct (fe_user E) as [rc0 user]. cbn [fst snd]. destruct (Z.eqb_spec rc0 PAM_SUCCESS) as [->|N0]; cbn [negb] in H.
  2:{ injection H as <-. cbn [fr_rc fr_items fr_asked]. split; [split; [discriminate|intros (X & _); contradiction]|]. split; [discriminate|]. split; [congruence|]. intro; contradiction. }
  fold users in H. pose proof (lookup_spec (fe_alloc E) user users) as LS. destruct (lookup (fe_alloc E) user users) as [[u|]|] eqn:LU.
  - destruct LS as (L1 & L2 & L3). unfold set_item in H at 1. destruct (fe_set E IUser) eqn:SU; cbn [negb orb] in H.
    2:{ injection H as <-. cbn [fr_rc fr_asked fr_items]. split; [split; [discriminate|intros (_ & _ & _ & X & _); discriminate]|]. split; [discriminate|]. split; [congruence|]. intros _ X. contradiction. }
    change (negb (PAM_SUCCESS =? PAM_SUCCESS)%Z) with false in H. cbn [orb] in H. cbv iota in H. destruct (fe_conv E AskEmail) as [rc1 resp]. cbn [fst]. destruct (Z.eqb_spec rc1 PAM_SUCCESS) as [->|N1]; cbn [negb] in H.
    2:{ injection H as <-. cbn [fr_rc fr_asked fr_items]. split; [split; [destruct (rc1 =? PAM_CONV_AGAIN)%Z; discriminate|intros (_ & _ & _ & _ & X); contradiction]|]. split; [destruct (rc1 =? PAM_CONV_AGAIN)%Z; discriminate|]. split; [auto|]. intros _ X. contradiction. }
    assert (K : fr_rc r = PAM_SUCCESS /\ i_user (fr_items r) = Some u /\ i_authtok (fr_items r) = i_authtok s).
    { destruct (f_ignore (ftp_parse args)); [injection H as <-; auto|]. destruct resp as [text|]; [|discriminate]. destruct (strtok (lit "@") text) as [[t rest]|]; [|injection H as <-; auto].
      unfold set_item in H. destruct (fe_set E IRuser); [|injection H as <-; auto]. change (PAM_SUCCESS =? PAM_SUCCESS)%Z with true in H. cbv iota in H. destruct (strtok (lit "@") rest) as [[h ?]|]; [destruct (fe_set E IRhost)|]; injection H as <-; auto. }
    destruct K as (K1 & K2 & K3). split; [split; auto; intros _; auto|]. split; [intros _; exists u; auto|]. split; [auto|]. intros _ X. contradiction.
  - destruct LS as (L1 & L2). cbn in H. injection H as <-. cbn [fr_rc fr_asked]. split; [split; [discriminate|intros (_ & _ & X & _); congruence]|]. split; [discriminate|]. split; [congruence|]. intros _ X. contradiction.
  - destruct (fe_conv E (AskPassword user)) as [rc1 resp]. cbn [fst snd]. destruct (Z.eqb_spec rc1 PAM_SUCCESS) as [->|N1]; cbn [negb] in H; injection H as <-; cbn [fr_rc fr_asked fr_items].
    + split; [split; [discriminate|intros (_ & X & Y & _); destruct LS as [L|L]; [contradiction|congruence]]|]. split; [discriminate|]. split; [discriminate|]. intros _ _. split; [unfold set_item; destruct resp; [destruct (fe_set E IAuthtok)|]; repeat split|]. split; [reflexivity|]. intros _. split; [reflexivity|]. intro X. unfold set_item. rewrite X. destruct resp; reflexivity.
    + split; [split; [destruct (rc1 =? PAM_CONV_AGAIN)%Z; discriminate|intros (_ & X & Y & _); destruct LS as [L|L]; [contradiction|congruence]]|]. split; [destruct (rc1 =? PAM_CONV_AGAIN)%Z; discriminate|]. split; [discriminate|]. intros _ _. split; [repeat split|]. split; [reflexivity|]. intro; contradiction.
Qed.
(** C99: what becomes of the e-mail address. *)
Theorem ftp_address : forall E args s r, ftp_authenticate E args s = Ok r -> fr_rc r = PAM_SUCCESS ->
  (f_ignore (ftp_parse args) = true -> i_ruser (fr_items r) = i_ruser s /\ i_rhost (fr_items r) = i_rhost s) /\
  (f_ignore (ftp_parse args) = false -> exists text, fe_conv E AskEmail = (PAM_SUCCESS, Some text) /\
     (fe_set E IRuser = true -> fe_set E IRhost = true -> forall ws, words (lit "@") text ws ->
        match ws with [] => i_ruser (fr_items r) = None /\ i_rhost (fr_items r) = i_rhost s | u :: ws => i_ruser (fr_items r) = Some u /\ i_rhost (fr_items r) = hd_error ws end)).
Proof.
  intros E args s r H R. unfold ftp_authenticate in H. cbv zeta in H. destruct (fe_user E) as [rc0 user]. destruct (negb (rc0 =? PAM_SUCCESS)%Z); [injection H as <-; discriminate|].
  destruct (lookup (fe_alloc E) user (f_users (ftp_parse args))) as [u|].
  2:{ destruct (fe_conv E (AskPassword user)) as [rc1 resp]. destruct (negb (rc1 =? PAM_SUCCESS)%Z); injection H as <-; cbn [fr_rc] in R; [destruct (rc1 =? PAM_CONV_AGAIN)%Z|]; discriminate. }
  assert (US : i_ruser (snd (set_item (fe_set E IUser) IUser u s)) = i_ruser s /\ i_rhost (snd (set_item (fe_set E IUser) IUser u s)) = i_rhost s) by (unfold set_item; destruct u; [destruct (fe_set E IUser)|]; auto).
  destruct (set_item (fe_set E IUser) IUser u s) as [rc2 s2]. cbn [snd] in US. destruct US as (U1 & U2). destruct (_ || _); [injection H as <-; discriminate|]. destruct (fe_conv E AskEmail) as [rc1 resp]. destruct (Z.eqb_spec rc1 PAM_SUCCESS) as [->|]; cbn [negb] in H; [|injection H as <-; cbn [fr_rc] in R; destruct (rc1 =? PAM_CONV_AGAIN)%Z; discriminate].
  destruct (f_ignore (ftp_parse args)); [split; [intros _; injection H as <-; auto|discriminate]|]. split; [discriminate|]. intros _. destruct resp as [text|]; [|discriminate]. exists text. split; [reflexivity|]. intros S1 S2 ws W.
  rewrite S1, S2 in H. destruct W as [p P|p w P N NS|p w x t ws P N NS X W].
  - apply strtok_none in P. rewrite P in H. injection H as <-. auto.
  - rewrite strtok_last in H by assumption. cbn in H. injection H as <-. auto.
  - rewrite strtok_more in H by assumption. cbn [set_item] in H. change (PAM_SUCCESS =? PAM_SUCCESS)%Z with true in H. cbv iota in H. assert (HD : match strtok (lit "@") t with Some (h, _) => Some h | None => None end = hd_error ws).
    { destruct W as [p' P'|p' w' P' N' NS'|p' w' x' t' ws' P' N' NS' X' W']; [apply strtok_none in P'; rewrite P'|rewrite strtok_last by assumption|rewrite strtok_more by assumption]; reflexivity. }
    rewrite HD in H. injection H as <-. destruct (hd_error ws); auto.
Qed.
(** C99: when the module is defined. *)
Theorem ftp_defined : forall E args s, (exists r, ftp_authenticate E args s = Ok r) \/
  (ftp_authenticate E args s = UB /\ anonymous (f_users (ftp_parse args)) (snd (fe_user E)) /\ fe_conv E AskEmail = (PAM_SUCCESS, None) /\ f_ignore (ftp_parse args) = false).
Proof.
  intros E args s. unfold ftp_authenticate. cbv zeta. destruct (fe_user E) as [rc0 user]. cbn [snd]. destruct (negb (rc0 =? PAM_SUCCESS)%Z); [left; eexists; reflexivity|]. pose proof (lookup_spec (fe_alloc E) user (f_users (ftp_parse args))) as LS.
  destruct (lookup (fe_alloc E) user (f_users (ftp_parse args))) as [u|].
  2:{ destruct (fe_conv E (AskPassword user)) as [rc1 resp]. destruct (negb (rc1 =? PAM_SUCCESS)%Z); left; eexists; reflexivity. }
  assert (AN : anonymous (f_users (ftp_parse args)) user) by (destruct u; apply LS). clear LS. destruct (set_item (fe_set E IUser) IUser u s) as [rc2 s2]. destruct (_ || _); [left; eexists; reflexivity|]. destruct (fe_conv E AskEmail) as [rc1 resp].
  destruct (Z.eqb_spec rc1 PAM_SUCCESS) as [->|]; cbn [negb]; [|left; eexists; reflexivity]. destruct (f_ignore (ftp_parse args)); [left; eexists; reflexivity|]. destruct resp as [text|]; [|right; auto].
  left. destruct (strtok (lit "@") text) as [[t rest]|]; [|eexists; reflexivity]. destruct (set_item (fe_set E IRuser) IRuser (Some t) s2) as [rc3 s3]. destruct (rc3 =? PAM_SUCCESS)%Z; eexists; reflexivity.
Qed.
Definition ftp_env1 (user answer : string) : ftp_env := mkFtpEnv (PAM_SUCCESS, lit user) true (fun _ => true) (fun _ => (PAM_SUCCESS, Some (lit answer))).
Definition items1 : items := mkItems (Some (lit "anonymous")) None (Some (lit "10.0.0.1")) None.
Example ftp_example :
  ftp_authenticate (ftp_env1 "anonymous" "ann@example.org") [lit "ignore"] items1 = Ok (mkFtpResult PAM_SUCCESS (mkItems (Some (lit "ftp")) None (Some (lit "10.0.0.1")) None) (Some AskEmail)) /\
  ftp_authenticate (ftp_env1 "b" "ann@example.org") [lit "users=a,b"] items1 = Ok (mkFtpResult PAM_SUCCESS (mkItems (Some (lit "a")) (Some (lit "ann")) (Some (lit "example.org")) None) (Some AskEmail)) /\
  ftp_authenticate (ftp_env1 "ftp" "secret") [lit "users=a,b"] items1 = Ok (mkFtpResult PAM_AUTH_ERR (mkItems (Some (lit "anonymous")) None (Some (lit "10.0.0.1")) (Some (lit "secret"))) (Some (AskPassword (lit "ftp")))).
Proof. repeat split. Qed.
(** C99: "PAM_RHOST is the host the application has set" is false after this module: the user chooses it, or removes it. *)
Theorem ftp_rhost_refuted : exists E E' s r r', i_rhost s = Some (lit "10.0.0.1") /\ ftp_authenticate E [] s = Ok r /\ fr_rc r = PAM_SUCCESS /\ i_rhost (fr_items r) = Some (lit "trusted.example.org") /\
  ftp_authenticate E' [] s = Ok r' /\ fr_rc r' = PAM_SUCCESS /\ i_rhost (fr_items r') = None.
Proof. exists (ftp_env1 "ftp" "me@trusted.example.org"), (ftp_env1 "ftp" "me"), items1. do 2 eexists. repeat split. Qed.
(** C99: "PAM_USER is a name of the list" is false for a list that begins with a comma. *)
Theorem ftp_guest_refuted : exists E r, ftp_authenticate E [lit "users=,guest"] items1 = Ok r /\ fr_rc r = PAM_SUCCESS /\ i_user (fr_items r) = Some (lit ",guest") /\ ~ listed (lit ",guest") (lit ",guest").
Proof. exists (ftp_env1 "guest" "x"). eexists. split; [vm_compute; reflexivity|]. split; [reflexivity|]. split; [reflexivity|]. intros (_ & N & _). apply N. left. reflexivity. Qed.
(** C99: a conversation that succeeds without a response is a read through NULL. *)
Theorem ftp_crash_refuted : exists E, ftp_authenticate E [] items1 = UB.
Proof. exists (mkFtpEnv (PAM_SUCCESS, lit "ftp") true (fun _ => true) (fun _ => (PAM_SUCCESS, None))). reflexivity. Qed.
(** C99: PAM_USER is changed, or removed, although the module fails. *)
Theorem ftp_failed_user_refuted : exists E E' r r', ftp_authenticate E [] items1 = Ok r /\ fr_rc r = PAM_AUTHINFO_UNAVAIL /\ i_user (fr_items r) = Some (lit "ftp") /\ ftp_authenticate E' [] items1 = Ok r' /\ fr_rc r' = PAM_USER_UNKNOWN /\ i_user (fr_items r') = None.
Proof. exists (mkFtpEnv (PAM_SUCCESS, lit "anonymous") true (fun _ => true) (fun _ => (PAM_CONV_ERR, None))), (mkFtpEnv (PAM_SUCCESS, lit "anonymous") false (fun _ => true) (fun _ => (PAM_CONV_ERR, None))). do 2 eexists. repeat split. Qed.

(** ** pam_rootok *)
(** C100: success exactly for processes of root, which SELinux does not forbid. *)
Theorem rootok_decides : forall uid L, (check_for_root uid L = PAM_SUCCESS <->
  uid = 0%Z /\ forall l, L = Some l -> (se_enabled l <= 0)%Z \/ (exists c, se_prevcon l = Some c /\ se_access l c = 0%Z) \/ se_enforce l = 0%Z) /\
  (check_for_root uid L <> PAM_SUCCESS -> check_for_root uid L = PAM_AUTH_ERR).
Proof.
  intros uid L. unfold check_for_root, selinux_check_root. split; [|destruct (_ && _); [contradiction|reflexivity]]. destruct (Z.eqb_spec uid 0) as [->|N]; cbn [andb]; [|split; [discriminate|intros (X & _); contradiction]]. destruct L as [l|]; [|split; [intros _; split; [reflexivity|discriminate]|reflexivity]].
  destruct (Z.ltb_spec (se_enabled l) 1) as [E|E]; [split; [intros _; split; [reflexivity|]; intros ? X; injection X as <-; left; lia|reflexivity]|]. destruct (Z.eqb_spec (se_enforce l) 0) as [F|F]; [rewrite orb_true_r; split; [intros _; split; [reflexivity|]; intros ? X; injection X as <-; auto|reflexivity]|].
  rewrite orb_false_r. destruct (se_prevcon l) as [c|] eqn:P.
  - destruct (Z.eqb_spec (se_access l c) 0) as [A|A]; [split; [intros _; split; [reflexivity|]; intros ? X; injection X as <-; right; left; exists c; auto|reflexivity]|]. split; [discriminate|]. intros (_ & X). destruct (X l eq_refl) as [Y|[(c' & Y & Z)|Y]]; [lia|congruence|contradiction].
  - split; [discriminate|]. intros (_ & X). destruct (X l eq_refl) as [Y|[(c' & Y & Z)|Y]]; [lia|congruence|contradiction].
Qed.
Example rootok_example : check_for_root 0 None = PAM_SUCCESS /\ check_for_root 0 (Some (mkSelinux 1 (Some (lit "c")) (fun _ => -1)%Z 1)) = PAM_AUTH_ERR /\ check_for_root 0 (Some (mkSelinux 1 None (fun _ => -1)%Z 0)) = PAM_SUCCESS /\ check_for_root 1000 None = PAM_AUTH_ERR.
Proof. repeat split. Qed.

(** ** pam_rhosts *)
Definition gives_super (a : cstr) (x : option cstr) : Prop := exists s, x = Some s /\ a = (lit "superuser=" ++ s)%list.
(** C100: success exactly if both remote names are known and ruserok agrees; it is asked with the superuser's rule exactly for the name of the last superuser= and for accounts with user-ID 0. *)
Theorem rhosts_decides : forall E args super, latest gives_super args None super -> (rhosts_authenticate E args = PAM_SUCCESS <->
  fst (rh_rhost E) = PAM_SUCCESS /\ fst (rh_ruser E) = PAM_SUCCESS /\ fst (rh_user E) = PAM_SUCCESS /\ exists rhost ruser root, snd (rh_rhost E) = Some rhost /\ snd (rh_ruser E) = Some ruser /\
  (super = Some (snd (rh_user E)) /\ root = true \/ super <> Some (snd (rh_user E)) /\ exists uid, rh_uid E (snd (rh_user E)) = Some uid /\ (root = true <-> uid = 0%Z)) /\ rh_ruserok E rhost root ruser (snd (rh_user E)) = 0%Z).
Proof.
  intros E args super SU.
  assert (SE : fold_left superuser_step args None = super).
  { assert (K : latest gives_super args None (fold_left superuser_step args None)).
    { apply (latest_fold gives_super superuser_step (fun x => x) args) with (t := None). intros t a _. unfold superuser_step. destruct (streq a (lit "debug")) eqn:E1; cbn [orb]; [apply streq_eq in E1; subst; right; split; [intros y (s & _ & X); discriminate|reflexivity]|].
      destruct (streq a (lit "silent")) eqn:E2; cbn [orb]; [apply streq_eq in E2; subst; right; split; [intros y (s & _ & X); discriminate|reflexivity]|]. destruct (streq a (lit "suppress")) eqn:E3; [apply streq_eq in E3; subst; right; split; [intros y (s & _ & X); discriminate|reflexivity]|].
      destruct (skip_prefix (lit "superuser=") a) as [s|] eqn:E4; [left; exists s; split; [reflexivity|apply skip_prefix_some; exact E4]|right; split; [|reflexivity]]. intros y (s & _ & X). apply skip_prefix_some in X. congruence. }
    assert (G : forall x y, latest gives_super args None x -> latest gives_super args None y -> x = y).
    { clear. intros x y [(a & s & b & E & P & N)|(N & ->)] [(a' & s' & b' & E' & P' & N')|(N' & ->)]; try reflexivity.
      - rewrite E in E'. apply app_eq_app in E'. destruct E' as (l & [(A & B)|(A & B)]).
        + destruct l as [|z l]; cbn [app] in B; injection B as B1 B2; [subst s'; destruct P as (p & -> & P), P' as (q & -> & P'); rewrite P' in P; apply app_inv_head in P; congruence|]. exfalso. apply (N' s x); [rewrite B2; apply in_or_app; right; left; reflexivity|exact P].
        + destruct l as [|z l]; cbn [app] in B; injection B as B1 B2; [subst s'; destruct P as (p & -> & P), P' as (q & -> & P'); rewrite P' in P; apply app_inv_head in P; congruence|]. exfalso. apply (N s' y); [rewrite B2; apply in_or_app; right; left; reflexivity|exact P'].
      - exfalso. apply (N' s x); [rewrite E; apply in_or_app; right; left; reflexivity|exact P].
      - exfalso. apply (N s' y); [rewrite E'; apply in_or_app; right; left; reflexivity|exact P']. }
    exact (G _ _ K SU). }
  unfold rhosts_authenticate. cbv zeta. rewrite SE. clear SE SU.
  destruct (Z.eqb_spec (fst (rh_rhost E)) PAM_SUCCESS) as [R1|R1]; cbn [negb]; [|split; [intro; contradiction|intros (X & _); contradiction]]. destruct (Z.eqb_spec (fst (rh_ruser E)) PAM_SUCCESS) as [R2|R2]; cbn [negb]; [|split; [intro; contradiction|intros (_ & X & _); contradiction]].
  destruct (Z.eqb_spec (fst (rh_user E)) PAM_SUCCESS) as [R3|R3]; cbn [negb]; [|split; [intro; contradiction|intros (_ & _ & X & _); contradiction]].
  destruct (snd (rh_rhost E)) as [rhost|]; [|split; [discriminate|intros (_ & _ & _ & h & u & ro & X & _); discriminate]]. destruct (snd (rh_ruser E)) as [ruser|]; [|split; [discriminate|intros (_ & _ & _ & h & u & ro & _ & X & _); discriminate]].
  set (luser := snd (rh_user E)). set (dec := match super with Some s => _ | None => _ end).
  assert (D : match dec with Some ro => super = Some luser /\ ro = true \/ super <> Some luser /\ exists uid, rh_uid E luser = Some uid /\ (ro = true <-> uid = 0%Z) | None => super <> Some luser /\ rh_uid E luser = None end).
  { assert (B : super <> Some luser -> match (match rh_uid E luser with Some u => Some (u =? 0)%Z | None => None end) with Some ro => super = Some luser /\ ro = true \/ super <> Some luser /\ exists uid, rh_uid E luser = Some uid /\ (ro = true <-> uid = 0%Z) | None => super <> Some luser /\ rh_uid E luser = None end).
    { intro N. destruct (rh_uid E luser) as [uid|]; [right; split; [exact N|]; exists uid; split; [reflexivity|apply Z.eqb_eq]|auto]. }
    unfold dec. destruct super as [s|]; [|apply B; discriminate]. destruct (streq s luser) eqn:SL; [apply streq_eq in SL; subst; auto|]. apply B. intro X. injection X as ->. rewrite streq_refl in SL. discriminate. }
  destruct dec as [ro|].
  - destruct (Z.eqb_spec (rh_ruserok E rhost ro ruser luser) 0) as [Q|Q]; [split; [intros _; do 3 (split; [assumption|]); exists rhost, ruser, ro; auto|reflexivity]|]. split; [discriminate|]. intros (_ & _ & _ & h & u & ro' & X & Y & Z & W). injection X as <-. injection Y as <-. exfalso. apply Q. rewrite <- W. f_equal.
    destruct D as [(D1 & ->)|(D1 & uid & D2 & D3)], Z as [(Z1 & ->)|(Z1 & uid' & Z2 & Z3)]; try contradiction; try reflexivity. rewrite D2 in Z2. injection Z2 as <-. destruct ro, ro'; try reflexivity; [symmetry; apply Z3; apply D3; reflexivity|apply D3; apply Z3; reflexivity].
  - split; [discriminate|]. intros (_ & _ & _ & h & u & ro' & X & Y & Z & W). destruct D as (D1 & D2). destruct Z as [(Z1 & _)|(_ & uid' & Z2 & _)]; [contradiction|congruence].
Qed.
Example rhosts_example : let E u := mkRhosts (PAM_SUCCESS, Some (lit "h")) (PAM_SUCCESS, Some (lit "ann")) (PAM_SUCCESS, lit u) (fun n => if streq n (lit "root") then Some 0%Z else if streq n (lit "ann") then Some 1000%Z else None) (fun _ root _ _ => if root then (-1)%Z else 0%Z) in
  rhosts_authenticate (E "ann"%string) [] = PAM_SUCCESS /\ rhosts_authenticate (E "root"%string) [] = PAM_AUTH_ERR /\ rhosts_authenticate (E "ann"%string) [lit "superuser=ann"] = PAM_AUTH_ERR /\ rhosts_authenticate (E "bob"%string) [] = PAM_USER_UNKNOWN.
Proof. repeat split. Qed.

(** ** pam_localuser *)
Definition gives_file (a : cstr) (x : option cstr) : Prop := exists s, x = Some s /\ a = (lit "file=" ++ s)%list.
(** C100: success exactly for names with an entry in the file. *)
Theorem localuser_decides : forall open_ user args, exists r file, localuser open_ user args = Ok r /\ latest gives_file args None file /\
  (r = PAM_SUCCESS <-> fst user = PAM_SUCCESS /\ snd user <> [] /\ ~ In c_colon (snd user) /\ exists f, open_ (match file with Some n => n | None => lit "/etc/passwd" end) = Some f /\ has_entry (snd user) f).
Proof.
  intros open_ user args. unfold localuser. set (file := fold_left file_step args None).
  assert (K : latest gives_file args None file).
  { unfold file. apply (latest_fold gives_file file_step (fun x => x) args) with (t := None). intros t a _. unfold file_step. destruct (streq (lit "debug") a) eqn:E1; [apply streq_eq in E1; subst; right; split; [intros y (s & _ & X); discriminate|reflexivity]|].
    destruct (skip_prefix (lit "file=") a) as [s|] eqn:E4; [left; exists s; split; [reflexivity|apply skip_prefix_some; exact E4]|right; split; [|reflexivity]]. intros y (s & _ & X). apply skip_prefix_some in X. congruence. }
  clearbody file. destruct (Z.eqb_spec (fst user) PAM_SUCCESS) as [U|U]; cbn [negb].
  2:{ eexists. exists file. split; [reflexivity|]. split; [exact K|]. split; [destruct (fst user =? PAM_CONV_AGAIN)%Z; [discriminate|intro; contradiction]|intros (X & _); contradiction]. }
  set (fn := match file with Some n => n | None => lit "/etc/passwd" end). cbv zeta. destruct (no_local_user (S (match open_ fn with Some t => length t | None => 0 end)) (snd user) (open_ fn)) as (N1 & N2 & N3).
  destruct (snd user) as [|c n] eqn:SU; [rewrite N1 by reflexivity; exists PAM_SERVICE_ERR, file; split; [reflexivity|]; split; [exact K|]; split; [discriminate|intros (_ & X & _); contradiction]|]. rewrite <- SU in *.
  destruct (in_dec ascii_dec c_colon (snd user)) as [I|I]; [rewrite N2 by exact I; exists PAM_PERM_DENIED, file; split; [reflexivity|]; split; [exact K|]; split; [discriminate|intros (_ & _ & X & _); contradiction]|].
  assert (NE : snd user <> []) by (rewrite SU; discriminate). destruct (open_ fn) as [f|] eqn:O.
  - destruct (local_user_iff_entry (S (length f)) (snd user) f NE I (Nat.lt_succ_diag_r _)) as (r & R & Q). exists r, file. split; [exact R|]. split; [exact K|]. fold fn. rewrite O. destruct Q as [(Q & ->)|(Q & ->)]; [split; [intros _|reflexivity]; do 3 (split; [assumption|]); exists f; auto|]. split; [discriminate|]. intros (_ & _ & _ & f' & X & Y). injection X as <-. contradiction.
  - exists PAM_SERVICE_ERR, file. split; [apply N3; assumption|]. split; [exact K|]. split; [discriminate|]. intros (_ & _ & _ & f' & X & _). fold fn in X. congruence.
Qed.
Example localuser_example : let open_ n := if streq n (lit "/f") then Some (lit "ann:x:1::") else None in
  localuser open_ (PAM_SUCCESS, lit "ann") [lit "file=/g"; lit "file=/f"] = Ok PAM_SUCCESS /\ localuser open_ (PAM_SUCCESS, lit "bob") [lit "file=/f"] = Ok PAM_PERM_DENIED /\ localuser open_ (PAM_SUCCESS, lit "ann") [] = Ok PAM_SERVICE_ERR.
Proof. repeat split. Qed.

(** ** pam_canonicalize_user and pam_permit *)
(** C100: pam_canonicalize_user never succeeds; if it is ignored, PAM_USER is the name in the account of the user given, and no other item is changed. *)
Theorem canonical_name : forall ok user name s, i_user s = Some (snd user) -> let r := canonicalize ok user name s in
  fst r <> PAM_SUCCESS /\ i_ruser (snd r) = i_ruser s /\ i_rhost (snd r) = i_rhost s /\ i_authtok (snd r) = i_authtok s /\
  (fst user = PAM_SUCCESS -> fst r = PAM_IGNORE -> exists n, name (snd user) = Some n /\ i_user (snd r) = Some n) /\ (fst r <> PAM_IGNORE -> i_user (snd r) = i_user s).
Proof.
  intros ok user name s U r. unfold r, canonicalize, set_item. destruct (Z.eqb_spec (fst user) PAM_SUCCESS) as [E|E]; cbn [negb].
  2:{ destruct (Z.eqb_spec (fst user) PAM_CONV_AGAIN) as [X|X]; cbn [fst snd]; (split; [discriminate || assumption|]); repeat split; intros; contradiction. }
  destruct (name (snd user)) as [n|]; [|cbn [fst snd]; split; [discriminate|]; repeat split; discriminate]. destruct (streq (snd user) n) eqn:SN.
  - apply streq_eq in SN. cbn [fst snd]. split; [discriminate|]. repeat split. intros _ _. exists n. split; [reflexivity|congruence].
  - destruct ok; cbn [fst snd i_user i_ruser i_rhost i_authtok]; (split; [discriminate|]); repeat split; try discriminate; [intros _ _; exists n; auto|contradiction].
Qed.
Example canonical_example : canonicalize true (PAM_SUCCESS, lit "ANN") (fun _ => Some (lit "ann")) (mkItems (Some (lit "ANN")) None None None) = (PAM_IGNORE, mkItems (Some (lit "ann")) None None None).
Proof. reflexivity. Qed.
(** C100: pam_permit succeeds for every user whose name is known, and nobody stands for the empty name. *)
Theorem permit_decides : forall ok user s, i_user s = Some (snd user) -> let r := permit ok user s in
  (fst r = PAM_SUCCESS <-> fst user = PAM_SUCCESS /\ (snd user <> [] \/ ok = true)) /\ (fst r = PAM_SUCCESS -> i_user (snd r) = Some (match snd user with [] => lit "nobody" | u => u end)).
Proof.
  intros ok user s U r. unfold r, permit, set_item. destruct (Z.eqb_spec (fst user) PAM_SUCCESS) as [E|E]; cbn [negb]; [|cbn [fst]; split; [split; [intro; contradiction|intros (X & _); contradiction]|intro; contradiction]].
  destruct (snd user) as [|c u] eqn:SU; [destruct ok; cbn|]; (split; [split; [|]|]); auto; try discriminate.
  - intros (_ & [X|X]); [contradiction|discriminate].
  - intros _. split; [exact E|left; discriminate].
Qed.
Example permit_example : permit true (PAM_SUCCESS, []) (mkItems (Some []) None None None) = (PAM_SUCCESS, mkItems (Some (lit "nobody")) None None None).
Proof. reflexivity. Qed.

(** ** pam_debug *)
(** The names of the results in the order of their numbers. *)
Definition result_names : list string := ["success"; "open_err"; "symbol_err"; "service_err"; "system_err"; "buf_err"; "perm_denied"; "auth_err"; "cred_insufficient"; "authinfo_unavail"; "user_unknown"; "maxtries"; "new_authtok_reqd"; "acct_expired"; "session_err"; "cred_unavail";
   "cred_expired"; "cred_err"; "no_module_data"; "conv_err"; "authtok_err"; "authtok_recover_err"; "authtok_lock_busy"; "authtok_disable_aging"; "try_again"; "ignore"; "abort"; "authtok_expired"; "module_unknown"; "bad_item"; "conv_again"; "incomplete"]%string.
(** C100: the first argument for the service decides: its result if it is one, success otherwise; success without such an argument. *)
Theorem debug_decides : forall sv args,
  (exists a v b, args = (a ++ (event_name sv ++ lit "=" ++ v) :: b)%list /\ (forall x y, In x a -> x <> (event_name sv ++ lit "=" ++ y)%list) /\
     ((exists j n, nth_error result_names j = Some n /\ v = lit n /\ debug_service sv args = (Z.of_nat j, Some (event_name sv ++ lit "=" ++ v)%list)) \/ ((forall n, In n result_names -> v <> lit n) /\ debug_service sv args = (PAM_SUCCESS, None)))) \/
  ((forall x y, In x args -> x <> (event_name sv ++ lit "=" ++ y)%list) /\ debug_service sv args = (PAM_SUCCESS, None)).
Proof.
  intros sv args. unfold debug_service. set (ev := event_name sv). clearbody ev.
  assert (PL : forall names k s, match place names k s with Some j => exists i, (j = k + i)%nat /\ nth_error names i = Some s | None => ~ In s names end).
  { induction names as [|n names IH]; intros k s; cbn [place]; [intros []|]. destruct (streq s n) eqn:E; [apply streq_eq in E; subst; exists O; split; [lia|reflexivity]|]. specialize (IH (S k) s). destruct (place names (S k) s) as [j|]; [destruct IH as (i & -> & IH); exists (S i); split; [lia|exact IH]|]. intros [X|X]; [subst; rewrite streq_refl in E; discriminate|contradiction]. }
  assert (RN : removelast token_returns = map lit result_names) by reflexivity.
  induction args as [|a args IH]; cbn [debug_args]; [right; split; [intros x y []|reflexivity]|]. destruct (skip_prefix (ev ++ lit "=")%list a) as [r|] eqn:E.
  - apply skip_prefix_some in E. rewrite <- app_assoc in E. subst a. left. exists [], r, args. split; [reflexivity|]. split; [intros x y []|]. specialize (PL (removelast token_returns) O r). rewrite RN in *. destruct (place (map lit result_names) 0 r) as [j|].
    + left. destruct PL as (i & -> & PL). rewrite nth_error_map in PL. destruct (nth_error result_names i) as [n|] eqn:NT; [|discriminate]. injection PL as <-. exists i, n. auto.
    + right. split; [|reflexivity]. intros n I X. apply PL. rewrite X. apply in_map. exact I.
  - assert (NA : forall y, a <> (ev ++ lit "=" ++ y)%list) by (intros y X; rewrite app_assoc in X; apply skip_prefix_some in X; congruence). destruct IH as [(p & v & b & -> & N & K)|(N & K)].
    + left. exists (a :: p), v, b. split; [reflexivity|]. split; [intros x y [<-|I]; [apply NA|apply N; exact I]|]. exact K.
    + right. split; [intros x y [<-|I]; [apply NA|apply N; exact I]|exact K].
Qed.
Example debug_example : debug_service SAuth [lit "cred=ignore"; lit "auth=auth_err"; lit "auth=success"] = (PAM_AUTH_ERR, Some (lit "auth=auth_err")) /\ debug_service SAuth [lit "auth=default"; lit "auth=abort"] = (PAM_SUCCESS, None) /\ debug_service (SChauthtok true) [lit "chauthtok=abort"] = (PAM_SUCCESS, None).
Proof. repeat split. Qed.

Print Assumptions ftp_settings.
Print Assumptions ftp_decides.
Print Assumptions ftp_address.
Print Assumptions ftp_defined.
Print Assumptions rootok_decides.
Print Assumptions rhosts_decides.
Print Assumptions localuser_decides.
Print Assumptions canonical_name.
Print Assumptions permit_decides.
Print Assumptions debug_decides.
