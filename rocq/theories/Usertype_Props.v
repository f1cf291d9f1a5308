(** C66: pam_usertype and pam_faildelay. *)
From Coq Require Import String Ascii List Arith ZArith Bool Lia.
From Verif Require Import Base Num_Model Str_Model Str_Facts Opt_Model Opt_Facts Usertype_Model.
Import ListNotations.
Local Open Scope Z_scope.

(** ** The spec *)

(** The last of the arguments that ask a question. *)
Definition question (o : op) : cstr := match o with OpSystem => lit "issystem" | OpRegular => lit "isregular" end.
Definition asked (args : list cstr) (o : op) : Prop :=
  exists a b, args = (a ++ question o :: b)%list /\ ~ In (lit "issystem") b /\ ~ In (lit "isregular") b.
(** The uid it is asked about. *)
Inductive subject (E : env) (args : list cstr) : Z -> Prop :=
| s_self : forall u, In (lit "use_uid") args -> e_self E = Some u -> subject E args u
| s_user : forall n u, ~ In (lit "use_uid") args -> e_get_user E = (PAM_SUCCESS, n) -> e_uid E n = Some u -> subject E args u.
(** A text that is a decimal number, perhaps between white space. *)
Definition whole (text : cstr) (neg : bool) (n : Z) : Prop :=
  exists t sp, text = (t ++ sp)%list /\ forallb isspace sp = true /\ signed 10 t neg n [].
(** The value of a key of /etc/login.defs: its number if that is below 2^32 - 1, otherwise [d]. *)
Inductive setting (E : env) (key : cstr) (d : Z) : Z -> Prop :=
| set_number : forall text neg n, e_defs E key = Some text -> whole text neg n -> ulong neg n < 4294967295 -> setting E key d (ulong neg n)
| set_default : (forall text neg n, e_defs E key = Some text -> whole text neg n -> 4294967295 <= ulong neg n) -> setting E key d d.
(** System users: the overflow uid, and those below UID_MIN and up to SYS_UID_MAX. *)
Definition system_uid (E : env) (u : Z) : Prop :=
  u = e_overflow E \/ exists m s, setting E (lit "UID_MIN") (e_uidmin E) m /\ setting E (lit "SYS_UID_MAX") ((m - 1) mod 2 ^ 32) s /\ u < m /\ u <= s.

(** ** Facts *)

Lemma parse_fold : forall args o,
  let p := fold_left (fun o a => if streq a (lit "use_uid") then (true, snd o) else if streq a (lit "audit") then o else if streq a (lit "issystem") then (fst o, Some OpSystem)
    else if streq a (lit "isregular") then (fst o, Some OpRegular) else o) args o in
  (fst p = true <-> fst o = true \/ In (lit "use_uid") args) /\
  ((exists q, asked args q /\ snd p = Some q) \/ (~ In (lit "issystem") args /\ ~ In (lit "isregular") args /\ snd p = snd o)).
Proof.
  induction args as [|a args IH]; intro o; cbn [fold_left].
  - split; [cbn [In]; tauto|]. right. cbn [In]. auto.
  - match goal with |- context [fold_left _ args ?X] => set (o' := X) end. specialize (IH o'). cbv zeta in IH |- *. destruct IH as (A & B).
    assert (O : (a = lit "use_uid" /\ o' = (true, snd o)) \/ (a <> lit "use_uid" /\ fst o' = fst o /\ ((exists q, a = question q /\ snd o' = Some q) \/ a <> lit "issystem" /\ a <> lit "isregular" /\ snd o' = snd o))).
    { unfold o'. assert (N : forall l, streq a l = false -> a <> l) by (intros l F ->; rewrite streq_refl in F; discriminate).
      destruct (streq a (lit "use_uid")) eqn:S1; [apply streq_eq in S1; left; auto|]. apply N in S1. right. split; [exact S1|].
      destruct (streq a (lit "audit")) eqn:S2; [apply streq_eq in S2; subst a; split; [reflexivity|]; right; repeat split; discriminate|].
      destruct (streq a (lit "issystem")) eqn:S3; [apply streq_eq in S3; split; [reflexivity|]; left; exists OpSystem; auto|].
      destruct (streq a (lit "isregular")) eqn:S4; [apply streq_eq in S4; split; [reflexivity|]; left; exists OpRegular; auto|]. split; [reflexivity|]. right. auto. }
    clearbody o'. split.
    + rewrite A. cbn [In]. destruct O as [(-> & ->)|(N & F & _)]; [cbn [fst]; tauto|rewrite F; intuition].
    + destruct B as [(q & (x & y & -> & N) & S1)|(N1 & N2 & S1)]; [left; exists q; split; [exists (a :: x), y; auto|exact S1]|].
      destruct O as [(-> & ->)|(N & F & [(q & -> & Q)|(M1 & M2 & Q)])].
      * right. cbn [In]. repeat split; [intros [X|X]; [discriminate|tauto]|intros [X|X]; [discriminate|tauto]|exact S1].
      * left. exists q. split; [exists [], args; auto|etransitivity; [exact S1|exact Q]].
      * right. cbn [In]. repeat split; [intros [X|X]; tauto|intros [X|X]; tauto|etransitivity; [exact S1|exact Q]].
Qed.

Lemma asked_unique : forall args o o', asked args o -> asked args o' -> o = o'.
Proof.
  intros args o o' (a & b & -> & N & M) (a' & b' & E & N' & M'). revert a' E. induction a as [|x a IH]; intros a' E.
  - destruct a' as [|y a']; cbn [app] in E; injection E as E1 E2; [destruct o, o'; reflexivity || discriminate|]. subst b. exfalso. destruct o'; [apply N|apply M]; apply in_or_app; right; left; reflexivity.
  - destruct a' as [|y a']; cbn [app] in E; injection E as E1 E2; [|apply (IH a'); exact E2]. subst b'. exfalso. destruct o; [apply N'|apply M']; apply in_or_app; right; left; reflexivity.
Qed.

Lemma parse_iff : forall args, (fst (usertype_parse args) = true <-> In (lit "use_uid") args) /\ (forall o, snd (usertype_parse args) = Some o <-> asked args o).
Proof.
  intro args. pose proof (parse_fold args (false, None)) as H. cbv zeta in H. fold (usertype_parse args) in H. cbn [fst snd] in H. destruct H as (A & B). split; [rewrite A; split; [intros [X|X]; [discriminate|exact X]|auto]|].
  intro o. destruct B as [(q & Q & S1)|(N & M & S1)].
  - rewrite S1. split; [intro X; injection X as <-; exact Q|]. intro X. rewrite (asked_unique _ _ _ X Q). reflexivity.
  - split; [intro X; assert (Y : Some o = None) by (rewrite <- X; exact S1); discriminate|]. intros (a & b & -> & _). exfalso. destruct o; [apply N|apply M]; apply in_or_app; right; left; reflexivity.
Qed.

Lemma subject_iff : forall E args u, get_uid E (fst (usertype_parse args)) = inl u <-> subject E args u.
Proof.
  intros E args u. destruct (parse_iff args) as (U & _). unfold get_uid. destruct (fst (usertype_parse args)) eqn:F.
  - assert (I : In (lit "use_uid") args) by (apply U; reflexivity). split.
    + intro H. destruct (e_self E) as [v|] eqn:S1; [injection H as ->; apply s_self; assumption|discriminate].
    + intros [v _ S1|n v N]; [rewrite S1; reflexivity|contradiction].
  - assert (N : ~ In (lit "use_uid") args) by (intro I; apply U in I; discriminate). split.
    + intro H. destruct (e_get_user E) as [r n] eqn:G. destruct (Z.eqb_spec r PAM_SUCCESS) as [->|]; [|discriminate]. cbn [negb] in H. destruct (e_uid E n) as [v|] eqn:S1; [injection H as ->; eapply s_user; eassumption|discriminate].
    + intros [v I _|n v _ G S1]; [contradiction|]. rewrite G, Z.eqb_refl. cbn [negb]. rewrite S1. reflexivity.
Qed.

Lemma signed_last : forall b t neg n, 0 < b <= 10 -> signed b t neg n [] -> t <> [] /\ isspace (last t NUL) = false.
Proof.
  intros b t neg n B (sp & sg & ds & -> & _ & _ & (N & D & _) & _). rewrite app_nil_r. destruct ds as [|d ds _] using rev_ind; [contradiction|].
  split; [intro X; apply app_eq_nil in X; destruct X as (_ & X); apply app_eq_nil in X; destruct X as (_ & X); destruct ds; discriminate|].
  rewrite !app_assoc, last_last. assert (hex_val d < b) by (apply D; apply in_or_app; right; left; reflexivity). apply digit_plain, hex_digit. lia.
Qed.
Lemma whole_iff : forall text neg n, whole text neg n <-> signed 10 (rtrim text) neg n [].
Proof.
  intros text neg n. split.
  - intros (t & sp & -> & A & S0). rewrite rtrim_app; [exact S0|exact A|]. right. apply (signed_last 10 t neg n); [lia|exact S0].
  - intro S0. destruct (rtrim_spec text) as (tr & E & A & _). exists (rtrim text), tr. auto.
Qed.

Lemma get_id_iff : forall E key d v, get_id E key d = v <-> setting E key d v.
Proof.
  intros E key d v.
  assert (X : setting E key d (get_id E key d)).
  { unfold get_id. destruct (e_defs E key) as [text|] eqn:T; [|apply set_default; intros t neg n X; congruence].
    assert (W : forall ul, (MAX_UID_VALUE <=? ul) || (MAX_UID_VALUE <=? ul mod 2 ^ 32) = false -> 0 <= ul -> ul < 4294967295 /\ ul mod 2 ^ 32 = ul).
    { intros ul X P. apply orb_false_iff in X. destruct X as (X & _). apply Z.leb_gt in X. unfold MAX_UID_VALUE in X. split; [exact X|]. apply Z.mod_small. change (2 ^ 32) with 4294967296. lia. }
    destruct (strtoul 10 (rtrim text)) as [ul [[|r0 r]|]] eqn:S0.
    - apply strtoul_some in S0; [|lia]. destruct S0 as (neg & n & S0 & ->). pose proof (signed_nonneg 10 _ _ _ _ ltac:(lia) S0) as P. assert (UP : 0 <= ulong neg n).
      { unfold ulong. assert (0 < ULONG_MAX) by reflexivity. destruct neg; [|lia]. destruct (n <=? ULONG_MAX); [|lia]. pose proof (Z.mod_pos_bound (- n) (2 ^ 64) ltac:(reflexivity)). lia. }
      destruct ((MAX_UID_VALUE <=? ulong neg n) || (MAX_UID_VALUE <=? ulong neg n mod 2 ^ 32)) eqn:C.
      + apply set_default. intros t neg' n' T' WH. rewrite T in T'. injection T' as <-. apply whole_iff in WH. destruct (signed_unique 10 _ _ _ _ _ _ _ ltac:(lia) S0 WH) as (-> & -> & _). apply orb_true_iff in C. unfold MAX_UID_VALUE in C.
        destruct C as [C|C]; apply Z.leb_le in C; [exact C|]. destruct (Z_lt_ge_dec (ulong neg' n') 4294967295) as [L|L]; [|lia]. rewrite Z.mod_small in C by (change (2 ^ 32) with 4294967296; lia). lia.
      + destruct (W _ C UP) as (L & ->). eapply set_number; [exact T|apply whole_iff; exact S0|exact L].
    - apply set_default. intros t neg' n' T' WH. rewrite T in T'. injection T' as <-. apply whole_iff in WH. apply strtoul_some in S0; [|lia]. destruct S0 as (neg & n & S0 & _). destruct (signed_unique 10 _ _ _ _ _ _ _ ltac:(lia) S0 WH) as (_ & _ & X). discriminate.
    - apply set_default. intros t neg' n' T' WH. rewrite T in T'. injection T' as <-. apply whole_iff in WH. apply strtoul_none in S0; [|lia]. destruct S0 as (_ & S0). destruct (S0 _ _ _ WH). }
  assert (U : forall v w, setting E key d v -> setting E key d w -> v = w).
  { intros v1 w [text neg n T W L|N] [text' neg' n' T' W' L'|N'].
    - rewrite T in T'. injection T' as <-. apply whole_iff in W, W'. destruct (signed_unique 10 _ _ _ _ _ _ _ ltac:(lia) W W') as (-> & -> & _). reflexivity.
    - specialize (N' _ _ _ T W). lia.
    - specialize (N _ _ _ T' W'). lia.
    - reflexivity. }
  split; [intros <-; exact X|]. intro Y. apply (U _ _ X Y).
Qed.

Lemma is_system_iff : forall E u, u <> 2 ^ 32 - 1 -> (system_uid E u /\ is_system E u = PAM_SUCCESS) \/ (~ system_uid E u /\ is_system E u = PAM_AUTH_ERR).
Proof.
  intros E u V. unfold is_system. destruct (Z.eqb_spec u (2 ^ 32 - 1)); [contradiction|]. destruct (Z.eqb_spec u (e_overflow E)) as [->|NO]; [left; split; [left; reflexivity|reflexivity]|]. cbv zeta.
  set (m := get_id E (lit "UID_MIN") (e_uidmin E)). set (s := get_id E (lit "SYS_UID_MAX") ((m - 1) mod 2 ^ 32)).
  assert (D : system_uid E u <-> u < m /\ u <= s).
  { split.
    - intros [X|(m' & s' & M & S0 & X)]; [contradiction|]. apply get_id_iff in M. fold m in M. subst m'. apply get_id_iff in S0. fold s in S0. subst s'. exact X.
    - intro X. right. exists m, s. split; [apply get_id_iff; reflexivity|]. split; [apply get_id_iff; reflexivity|exact X]. }
  destruct ((u <=? s) && (u <? m)) eqn:C.
  - left. apply andb_true_iff in C. destruct C as (C1 & C2). apply Z.leb_le in C1. apply Z.ltb_lt in C2. split; [apply D; lia|reflexivity].
  - right. split; [|reflexivity]. rewrite D. intros (X & Y). apply Z.ltb_lt in X. apply Z.leb_le in Y. rewrite X, Y in C. discriminate.
Qed.

(** ** Theorems *)

(** Each valid uid is either a system or a regular one, and the module says which. *)
Theorem usertype_decides : forall E args o u, asked args o -> subject E args u -> u <> 2 ^ 32 - 1 ->
  (usertype E args = PAM_SUCCESS \/ usertype E args = PAM_AUTH_ERR) /\
  (usertype E args = PAM_SUCCESS <-> match o with OpSystem => system_uid E u | OpRegular => ~ system_uid E u end).
Proof.
  intros E args o u A S0 V. apply (proj2 (parse_iff args)) in A. apply subject_iff in S0. unfold usertype. destruct (usertype_parse args) as [uu q]. cbn [fst snd] in *. subst q. rewrite S0.
  destruct (is_system_iff E u V) as [(X & Y)|(X & Y)]; destruct o; unfold is_regular; rewrite Y; cbn [Z.eqb]; (split; [auto|]); split; intro Z0; try discriminate; try reflexivity; tauto.
Qed.
(** The invalid uid is neither; without a question nothing is decided; without a user the error is passed on. *)
Theorem usertype_errors : forall E args,
  ((forall o, ~ asked args o) -> usertype E args = PAM_SERVICE_ERR) /\
  (forall o, asked args o -> subject E args (2 ^ 32 - 1) -> usertype E args = PAM_USER_UNKNOWN) /\
  (forall o, asked args o -> (forall u, ~ subject E args u) -> usertype E args <> PAM_SUCCESS).
Proof.
  intros E args. destruct (parse_iff args) as (U & Q). split; [|split].
  - intro N. unfold usertype. destruct (usertype_parse args) as [uu q]. cbn [snd] in Q. destruct q as [q|]; [|reflexivity]. destruct (N q). apply Q. reflexivity.
  - intros o A S0. apply Q in A. apply subject_iff in S0. unfold usertype. destruct (usertype_parse args) as [uu q]. cbn [fst snd] in *. subst q. rewrite S0. destruct o; [reflexivity|]. unfold is_regular, is_system. rewrite Z.eqb_refl. reflexivity.
  - intros o A N. apply Q in A. assert (G : forall u, get_uid E (fst (usertype_parse args)) <> inl u) by (intros u X; apply subject_iff in X; destruct (N u X)). unfold usertype. destruct (usertype_parse args) as [uu q]. cbn [fst snd] in *. subst q.
    destruct (get_uid E uu) as [u|e] eqn:GU; [destruct (G u eq_refl)|]. unfold get_uid in GU. destruct uu; [destruct (e_self E); [discriminate|injection GU as <-; discriminate]|]. destruct (e_get_user E) as [r n]. destruct (Z.eqb_spec r PAM_SUCCESS) as [->|NR]; cbn [negb] in GU; [destruct (e_uid E n); [discriminate|injection GU as <-; discriminate]|].
    injection GU as <-. destruct (r =? PAM_CONV_AGAIN); [discriminate|exact NR].
Qed.

Definition exE (u : Z) (m s : option string) : env :=
  mkEnv (Some 7) (PAM_SUCCESS, lit "x") (fun _ => Some u) (fun k => if streq k (lit "UID_MIN") then option_map lit m else option_map lit s) 65534 1000.
Example usertype_example : asked [lit "isregular"; lit "issystem"; lit "audit"] OpSystem /\ subject (exE 999 None None) [lit "isregular"; lit "issystem"; lit "audit"] 999 /\
  usertype (exE 999 None None) [lit "isregular"; lit "issystem"; lit "audit"] = PAM_SUCCESS /\ usertype (exE 999 None None) [lit "isregular"] = PAM_AUTH_ERR /\
  usertype (exE 1000 None None) [lit "isregular"] = PAM_SUCCESS /\ usertype (exE 999 (Some "500  "%string) None) [lit "isregular"] = PAM_SUCCESS /\
  usertype (exE 1000 (Some "4294967295"%string) None) [lit "isregular"] = PAM_SUCCESS /\ usertype (exE 65534 None None) [lit "issystem"] = PAM_SUCCESS /\
  usertype (exE 1000 None None) [lit "issystem"; lit "use_uid"] = PAM_SUCCESS /\ usertype (exE 4294967295 None None) [lit "isregular"] = PAM_USER_UNKNOWN.
Proof.
  split; [exists [lit "isregular"], [lit "audit"]; split; [reflexivity|split; intros [X|[]]; discriminate]|]. split; [apply subject_iff; reflexivity|]. vm_compute. repeat split.
Qed.

(** "Users below UID_MIN are system users": not those above SYS_UID_MAX. *)
Theorem below_min_is_system_refuted : exists E args u m, asked args OpRegular /\ subject E args u /\ setting E (lit "UID_MIN") (e_uidmin E) m /\ u < m /\ usertype E args = PAM_SUCCESS.
Proof.
  exists (exE 600 (Some "1000"%string) (Some "499"%string)), [lit "isregular"], 600, 1000. split; [exists [], []; split; [reflexivity|split; intros []]|]. split; [apply subject_iff; reflexivity|]. split; [apply get_id_iff; vm_compute; reflexivity|]. split; [lia|vm_compute; reflexivity].
Qed.
(** "A negative setting is ignored": a very negative one counts modulo 2^64. *)
Theorem negative_ignored_refuted : exists E text n, e_defs E (lit "UID_MIN") = Some text /\ whole text true n /\ 0 < n /\ setting E (lit "UID_MIN") (e_uidmin E) 5000 /\ e_uidmin E <> 5000.
Proof.
  exists (exE 600 (Some "-18446744073709546616"%string) None), (lit "-18446744073709546616"), 18446744073709546616. split; [reflexivity|]. split.
  - apply whole_iff. apply conv_signed; [lia|]. eexists _, _. split; vm_compute; reflexivity.
  - split; [lia|]. split; [apply get_id_iff; vm_compute; reflexivity|discriminate].
Qed.

(** ** pam_faildelay *)

(** A text that is a number, and the number as a long if not negative. *)
Definition delay_text (t : cstr) (d : Z) : Prop := exists neg n, signed 10 t neg n [] /\ d = long_of neg n /\ 0 <= d.

Lemma parse_delay_iff : forall t d, 0 <= d -> (parse_delay t = d <-> delay_text t d).
Proof.
  intros t d P. unfold parse_delay. split.
  - destruct (strtol t) as [v [[|r0 r]|]] eqn:S0; [|lia|lia]. apply strtol_some in S0. destruct S0 as (neg & n & S0 & ->). destruct (Z.ltb_spec (long_of neg n) 0); [lia|]. intros <-. exists neg, n. auto.
  - intros (neg & n & S0 & -> & _). assert (X : strtol t = (long_of neg n, Some [])) by (apply strtol_some; eauto). rewrite X. destruct (Z.ltb_spec (long_of neg n) 0); [lia|reflexivity].
Qed.

Lemma delay_args_iff : forall args d0 d, delay_args args d0 = Some d <->
  (forall t, In (lit "delay=" ++ t)%list args -> exists v, delay_text t v /\ v <= 4294967295) /\
  (((forall t, ~ In (lit "delay=" ++ t)%list args) /\ d = d0) \/ exists a t b, args = (a ++ (lit "delay=" ++ t)%list :: b)%list /\ (forall x, ~ In (lit "delay=" ++ x)%list b) /\ delay_text t d).
Proof.
  induction args as [|a args IH]; intros d0 d; cbn [delay_args].
  - split; [injection 1 as <-; split; [intros t []|left; split; [intros t []|reflexivity]]|]. intros (_ & [(_ & ->)|(a & t & b & X & _)]); [reflexivity|destruct a; discriminate].
  - destruct (skip_prefix (lit "delay=") a) as [t|] eqn:SK.
    + apply skip_prefix_some in SK. subst a. cbv zeta.
      assert (INJ : forall x, (lit "delay=" ++ t)%list = (lit "delay=" ++ x)%list -> t = x) by (intros x X; apply app_inv_head in X; exact X).
      destruct ((parse_delay t <? 0) || (4294967295 <? parse_delay t)) eqn:C.
      * split; [discriminate|]. intros (V & _). exfalso. destruct (V t (or_introl eq_refl)) as (v & (X & Y)). assert (P : 0 <= v) by (destruct X as (? & ? & _ & _ & P); exact P). apply parse_delay_iff in X; [|exact P]. rewrite X in C. apply orb_true_iff in C. destruct C as [C|C]; apply Z.ltb_lt in C; lia.
      * apply orb_false_iff in C. destruct C as (C1 & C2). apply Z.ltb_ge in C1, C2. assert (DT : delay_text t (parse_delay t)) by (apply parse_delay_iff; [exact C1|reflexivity]). rewrite IH. split.
        -- intros (V & K). split.
           ++ intros x [X|X]; [apply INJ in X; subst x; exists (parse_delay t); auto|apply V; exact X].
           ++ right. destruct K as [(N & ->)|(a' & x & b & -> & N & D)]; [exists [], t, args; auto|]. exists ((lit "delay=" ++ t)%list :: a'), x, b. auto.
        -- intros (V & K). split; [intros x X; apply V; right; exact X|]. destruct K as [(N & _)|(a' & x & b & E & N & D)]; [destruct (N t); left; reflexivity|].
           destruct a' as [|y a']; cbn [app] in E; injection E as E1 E2; [|right; exists a', x, b; auto]. subst x b. left. split; [exact N|]. assert (P : 0 <= d) by (destruct D as (? & ? & _ & _ & P); exact P). apply parse_delay_iff in D; [|exact P]. symmetry. exact D.
    + assert (NA : forall x, a <> (lit "delay=" ++ x)%list) by (intros x ->; rewrite skip_prefix_app in SK; discriminate). rewrite IH. split.
      * intros (V & K). split; [intros x [X|X]; [destruct (NA x X)|apply V; exact X]|]. destruct K as [(N & ->)|(a' & x & b & -> & N & D)]; [left; split; [intros x [X|X]; [destruct (NA x X)|exact (N x X)]|reflexivity]|right; exists (a :: a'), x, b; auto].
      * intros (V & K). split; [intros x X; apply V; right; exact X|]. destruct K as [(N & ->)|(a' & x & b & E & N & D)]; [left; split; [intros x X; apply (N x); right; exact X|reflexivity]|].
        destruct a' as [|y a']; cbn [app] in E; injection E as E1 E2; [destruct (NA x E1)|right; exists a', x, b; auto].
Qed.

(** The delay set: that of the last delay= in microseconds, if all are valid; without one, that of FAIL_DELAY in seconds. *)
Theorem faildelay_value : forall defs args d, faildelay defs args = Some d <->
  (forall t, In (lit "delay=" ++ t)%list args -> exists v, delay_text t v /\ v <= 4294967295) /\
  ((exists a t b, args = (a ++ (lit "delay=" ++ t)%list :: b)%list /\ (forall x, ~ In (lit "delay=" ++ x)%list b) /\ delay_text t d) \/
   ((forall t, ~ In (lit "delay=" ++ t)%list args) /\ exists t s, defs = Some t /\ delay_text t s /\ s <= 4294 /\ d = s * 1000000)).
Proof.
  intros defs args d. unfold faildelay. change (4294967295 / 1000000) with 4294.
  assert (DN : forall t v, delay_text t v -> 0 <= v) by (intros t v (? & ? & _ & _ & P); exact P).
  split.
  - destruct (delay_args args (-1)) as [d1|] eqn:D; [|discriminate]. apply delay_args_iff in D. destruct D as (V & K). destruct (Z.eqb_spec d1 (-1)) as [->|NE].
    + intro H. split; [exact V|]. right. split; [destruct K as [(N & _)|(a & t & b & _ & _ & D)]; [exact N|apply DN in D; lia]|]. destruct defs as [t|]; [|discriminate]. cbv zeta in H.
      destruct ((parse_delay t <? 0) || (4294 <? parse_delay t)) eqn:C; [discriminate|]. apply orb_false_iff in C. destruct C as (C1 & C2). apply Z.ltb_ge in C1, C2. injection H as <-. exists t, (parse_delay t). split; [reflexivity|]. split; [apply parse_delay_iff; [exact C1|reflexivity]|auto].
    + intro H. injection H as ->. split; [exact V|]. left. destruct K as [(_ & X)|K]; [contradiction|exact K].
  - intros (V & [(a & t & b & E & N & D)|(N & t & s & -> & D & L & ->)]).
    + assert (X : delay_args args (-1) = Some d) by (apply delay_args_iff; split; [exact V|]; right; exists a, t, b; auto). rewrite X. apply DN in D. destruct (Z.eqb_spec d (-1)); [lia|reflexivity].
    + assert (X : delay_args args (-1) = Some (-1)) by (apply delay_args_iff; split; [exact V|]; left; auto). rewrite X, Z.eqb_refl. pose proof (DN _ _ D) as P. apply parse_delay_iff in D; [|exact P]. rewrite D. cbv zeta.
      destruct (Z.ltb_spec s 0); [lia|]. destruct (Z.ltb_spec 4294 s); [lia|]. reflexivity.
Qed.
(** So it always fits the unsigned int it is cast to. *)
Corollary faildelay_fits : forall defs args d, faildelay defs args = Some d -> 0 <= d <= 4294967295.
Proof.
  intros defs args d H. apply faildelay_value in H. destruct H as (V & [(a & t & b & -> & N & D)|(N & t & s & _ & (_ & _ & _ & _ & P) & L & ->)]); [|lia].
  destruct (V t) as (v & D' & L); [apply in_or_app; right; left; reflexivity|]. assert (v = d). { destruct D as (neg & n & S0 & -> & _). destruct D' as (neg' & n' & S1 & -> & _). destruct (signed_unique 10 _ _ _ _ _ _ _ ltac:(lia) S0 S1) as (-> & -> & _). reflexivity. }
  subst v. destruct D as (_ & _ & _ & _ & P). lia.
Qed.
Example faildelay_example : faildelay (Some (lit "3")) [lit "debug"] = Some 3000000 /\ faildelay (Some (lit "3")) [lit "delay=5"; lit "delay=4294967295"] = Some 4294967295 /\
  faildelay (Some (lit "3")) [lit "delay=5"; lit "delay=4294967296"] = None /\ faildelay (Some (lit "4295")) [] = None /\ faildelay (Some (lit "4294")) [] = Some 4294000000 /\
  delay_text (lit "5") 5.
Proof. repeat split; try (vm_compute; reflexivity). apply parse_delay_iff; [lia|vm_compute; reflexivity]. Qed.
(** "An invalid option is ignored": it disables the valid ones and /etc/login.defs. *)
Theorem invalid_delay_ignored_refuted : exists defs args d, faildelay defs args = Some d /\ faildelay defs (args ++ [lit "delay="])%list = None.
Proof. exists (Some (lit "3")), [lit "delay=500000"], 500000. split; vm_compute; reflexivity. Qed.

Print Assumptions usertype_decides.
Print Assumptions usertype_errors.
Print Assumptions below_min_is_system_refuted.
Print Assumptions negative_ignored_refuted.
Print Assumptions faildelay_value.
Print Assumptions faildelay_fits.
Print Assumptions invalid_delay_ignored_refuted.
