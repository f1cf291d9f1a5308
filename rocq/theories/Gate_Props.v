(** C64: pam_wheel, C65: pam_nologin and pam_shells. *)
From Coq Require Import String Ascii List Arith ZArith Bool Lia.
From Verif Require Import Base Num_Model Str_Model Str_Facts Opt_Model Opt_Facts Gate_Model.
Import ListNotations.
Local Open Scope Z_scope.

(** The last option of the form [k]v. *)
Definition last_value (k : cstr) (args : list cstr) (v : cstr) : Prop :=
  exists a b, args = (a ++ (k ++ v) :: b)%list /\ forall x w, In x b -> x <> (k ++ w)%list.
Definition no_value (k : cstr) (args : list cstr) : Prop := forall x w, In x args -> x <> (k ++ w)%list.

(** ** pam_wheel: the spec *)

(** The one who asks: with use_uid the user who runs the program, otherwise who is logged in and, if that is not known and the request is not
    from another host, the remote user. *)
Inductive asks (E : wenv) (args : list cstr) : Z -> Prop :=
| a_self : forall u, In (lit "use_uid") args -> v_self E = Some u -> asks E args u
| a_login : forall n u, ~ In (lit "use_uid") args -> v_login E = Some n -> v_uid E n = Some u -> asks E args u
| a_remote : forall n u, ~ In (lit "use_uid") args -> v_login E = None -> v_rhost E = None -> v_ruser E = Some n -> v_uid E n = Some u -> asks E args u.
(** The group meant: that of the last group=, or wheel, or group 0. *)
Inductive meant (E : wenv) (args : list cstr) : Z -> Prop :=
| m_named : forall n g, last_value (lit "group=") args n -> n <> [] -> v_gid E n = Some g -> meant E args g
| m_wheel : forall g, no_value (lit "group=") args \/ last_value (lit "group=") args [] -> v_gid E (lit "wheel") = Some g -> meant E args g
| m_zero : no_value (lit "group=") args \/ last_value (lit "group=") args [] -> v_gid E (lit "wheel") = None -> v_gid0 E = true -> meant E args 0.
(** The request is one the module looks at. *)
Definition looked_at (E : wenv) (args : list cstr) : Prop :=
  exists user u, v_get_user E = (PAM_SUCCESS, user) /\ v_uid E user = Some u /\ (In (lit "root_only") args -> u = 0).

(** ** The options *)

Lemma wheel_fold : forall args o,
  let p := fold_left (fun o a => wheel_arg a o) args o in
  (w_use_uid p = true <-> w_use_uid o = true \/ In (lit "use_uid") args) /\ (w_trust p = true <-> w_trust o = true \/ In (lit "trust") args) /\
  (w_deny p = true <-> w_deny o = true \/ In (lit "deny") args) /\ (w_root_only p = true <-> w_root_only o = true \/ In (lit "root_only") args) /\
  ((no_value (lit "group=") args /\ w_group p = w_group o) \/ last_value (lit "group=") args (w_group p)).
Proof.
  induction args as [|a args IH]; intro o; cbn [fold_left].
  - cbn [In]. split; [tauto|]. split; [tauto|]. split; [tauto|]. split; [tauto|]. left. split; [intros x w []|reflexivity].
  - specialize (IH (wheel_arg a o)). cbv zeta in IH |- *. destruct IH as (H1 & H2 & H3 & H4 & H5).
    rewrite H1, H2, H3, H4. cbn [In].
    assert (X : (w_use_uid (wheel_arg a o) = true <-> w_use_uid o = true \/ a = lit "use_uid") /\ (w_trust (wheel_arg a o) = true <-> w_trust o = true \/ a = lit "trust") /\
      (w_deny (wheel_arg a o) = true <-> w_deny o = true \/ a = lit "deny") /\ (w_root_only (wheel_arg a o) = true <-> w_root_only o = true \/ a = lit "root_only") /\
      ((forall v, a <> (lit "group=" ++ v)%list) /\ w_group (wheel_arg a o) = w_group o \/ a = (lit "group=" ++ w_group (wheel_arg a o))%list)).
    { unfold wheel_arg.
      destruct (streq a (lit "debug")) eqn:S1; [apply streq_eq in S1; subst a; repeat split; try tauto; try (intros [X|X]; [exact X|discriminate X]); left; split; [intros v X; discriminate X|reflexivity]|].
      destruct (streq a (lit "use_uid")) eqn:S2; [apply streq_eq in S2; subst a; cbn; repeat split; try tauto; try (intros [X|X]; [exact X|discriminate X]); left; split; [intros v X; discriminate X|reflexivity]|].
      destruct (streq a (lit "trust")) eqn:S3; [apply streq_eq in S3; subst a; cbn; repeat split; try tauto; try (intros [X|X]; [exact X|discriminate X]); left; split; [intros v X; discriminate X|reflexivity]|].
      destruct (streq a (lit "deny")) eqn:S4; [apply streq_eq in S4; subst a; cbn; repeat split; try tauto; try (intros [X|X]; [exact X|discriminate X]); left; split; [intros v X; discriminate X|reflexivity]|].
      destruct (streq a (lit "root_only")) eqn:S5; [apply streq_eq in S5; subst a; cbn; repeat split; try tauto; try (intros [X|X]; [exact X|discriminate X]); left; split; [intros v X; discriminate X|reflexivity]|].
      assert (N : forall l, streq a l = false -> a <> l) by (intros l F ->; rewrite streq_refl in F; discriminate).
      apply N in S1, S2, S3, S4, S5.
      destruct (skip_prefix (lit "group=") a) as [g|] eqn:SK.
      - apply skip_prefix_some in SK. cbn. repeat split; try tauto. 
      - repeat split; try tauto. left. split; [|reflexivity]. intros v X. apply skip_prefix_none in SK. apply SK. eauto. }
    destruct X as (X1 & X2 & X3 & X4 & X5). rewrite X1, X2, X3, X4.
    split; [intuition congruence|]. split; [intuition congruence|]. split; [intuition congruence|]. split; [intuition congruence|].
    destruct H5 as [(N & E)|(p & q & E & L)].
    + rewrite E. destruct X5 as [(Y & Z0)|Y].
      * left. split; [|exact Z0]. intros x w [<-|I]; [apply Y|apply N; exact I].
      * right. exists [], args. split; [cbn [app]; f_equal; exact Y|exact N].
    + right. exists (a :: p), q. split; [cbn [app]; f_equal; exact E|exact L].
Qed.

Lemma wheel_options : forall args,
  let p := wheel_parse args in
  (w_use_uid p = true <-> In (lit "use_uid") args) /\ (w_trust p = true <-> In (lit "trust") args) /\
  (w_deny p = true <-> In (lit "deny") args) /\ (w_root_only p = true <-> In (lit "root_only") args) /\
  ((no_value (lit "group=") args /\ w_group p = []) \/ last_value (lit "group=") args (w_group p)).
Proof.
  intro args. pose proof (wheel_fold args (mkWopts false false false false [])) as H. cbv zeta in H |- *. fold (wheel_parse args) in H. cbn [w_use_uid w_trust w_deny w_root_only w_group] in H.
  assert (X : forall P : Prop, (false = true \/ P) <-> P) by (intro P; split; [intros [Y|Y]; [discriminate|exact Y]|auto]). rewrite !X in H. exact H.
Qed.

Lemma last_value_unique : forall k args v w, last_value k args v -> last_value k args w -> v = w.
Proof.
  intros k args v w (a & b & E & N) (a' & b' & E' & N'). subst args. revert a' E'. induction a as [|x a IH]; intros a' E'.
  - destruct a' as [|y a']; cbn [app] in E'; injection E' as E1 E2.
    + apply app_inv_head in E1. congruence.
    + subst b. exfalso. apply (N (k ++ w)%list w); [apply in_or_app; right; left; reflexivity|reflexivity].
  - destruct a' as [|y a']; cbn [app] in E'; injection E' as E1 E2.
    + subst b'. exfalso. apply (N' (k ++ v)%list v); [apply in_or_app; right; left; reflexivity|reflexivity].
    + apply (IH a'). exact E2.
Qed.
Lemma no_last : forall k args v, no_value k args -> ~ last_value k args v.
Proof. intros k args v N (a & b & -> & _). apply (N (k ++ v)%list v); [apply in_or_app; right; left; reflexivity|reflexivity]. Qed.

Lemma asker_iff : forall E args u, asker E (wheel_parse args) = Some u <-> asks E args u.
Proof.
  intros E args u. destruct (wheel_options args) as (U & _). unfold asker. destruct (w_use_uid (wheel_parse args)) eqn:W.
  - split; [intro H; apply a_self; [apply U; reflexivity|exact H]|]. assert (I : In (lit "use_uid") args) by (apply U; reflexivity). intros [u' _ H|n u' N|n u' N]; [exact H|contradiction..].
  - assert (N : ~ In (lit "use_uid") args) by (intro I; apply U in I; discriminate). split.
    + destruct (v_login E) as [l|] eqn:L; [intro H; eapply a_login; eauto|]. destruct (v_rhost E) eqn:R; [discriminate|]. destruct (v_ruser E) as [n|] eqn:RU; [|discriminate]. intro H. eapply a_remote; eauto.
    + intros [u' I _|n u' _ L H|n u' _ L R RU H]; [contradiction| |]; rewrite L; [exact H|]. rewrite R, RU. exact H.
Qed.

Lemma group_iff : forall E args g, wheel_group E (wheel_parse args) = Some g <-> meant E args g.
Proof.
  intros E args g. destruct (wheel_options args) as (_ & _ & _ & _ & G). unfold wheel_group. split.
  - intro H. destruct (w_group (wheel_parse args)) as [|c n] eqn:W.
    + assert (X : no_value (lit "group=") args \/ last_value (lit "group=") args []) by (destruct G as [(G & _)|G]; auto).
      destruct (v_gid E (lit "wheel")) as [g'|] eqn:V; [injection H as <-; apply m_wheel; assumption|]. destruct (v_gid0 E) eqn:V0; [|discriminate]. injection H as <-. apply m_zero; assumption.
    + destruct G as [(_ & G)|G]; [discriminate|]. eapply m_named; [exact G|discriminate|exact H].
  - assert (D : forall n, last_value (lit "group=") args n -> w_group (wheel_parse args) = n).
    { intros n L. destruct G as [(N & _)|G]; [destruct (no_last _ _ _ N L)|]. eapply last_value_unique; eassumption. }
    assert (D0 : no_value (lit "group=") args \/ last_value (lit "group=") args [] -> w_group (wheel_parse args) = []).
    { intros [N|L]; [|apply D; exact L]. destruct G as [(_ & G)|G]; [exact G|destruct (no_last _ _ _ N G)]. }
    intros [n g' L N V|g' X V|X V V0].
    + rewrite (D n L). destruct n; [contradiction|exact V].
    + rewrite (D0 X), V. reflexivity.
    + rewrite (D0 X), V, V0. reflexivity.
Qed.

(** The decision. *)
Theorem wheel_decides : forall E args a g, looked_at E args -> asks E args a -> meant E args g ->
  wheel E args =
    match v_member E a g, in_dec (list_eq_dec ascii_dec) (lit "deny") args, in_dec (list_eq_dec ascii_dec) (lit "trust") args with
    | true, left _, _ => PAM_PERM_DENIED
    | false, right _, _ => PAM_PERM_DENIED
    | _, _, left _ => PAM_SUCCESS
    | _, _, right _ => PAM_IGNORE
    end.
Proof.
  intros E args a g (user & u & G & U & R) A M. destruct (wheel_options args) as (_ & T & D & RO & _). unfold wheel. rewrite G, Z.eqb_refl, U. cbn [negb].
  assert (X : w_root_only (wheel_parse args) && negb (u =? 0) = false).
  { destruct (w_root_only (wheel_parse args)); [|reflexivity]. rewrite R by (apply RO; reflexivity). reflexivity. }
  rewrite X. apply asker_iff in A. apply group_iff in M. rewrite A, M.
  destruct (v_member E a g); destruct (in_dec (list_eq_dec ascii_dec) (lit "deny") args) as [I|N]; destruct (in_dec (list_eq_dec ascii_dec) (lit "trust") args) as [I2|N2];
    destruct (w_deny (wheel_parse args)) eqn:WD; destruct (w_trust (wheel_parse args)) eqn:WT; try reflexivity; exfalso;
    first [apply N, D; reflexivity|apply D in I; discriminate|apply N2, T; reflexivity|apply T in I2; discriminate].
Qed.

(** Nobody is vouched for without trust; a member is vouched for, or a non-member with deny, and nobody else. *)
Theorem wheel_success : forall E args, wheel E args = PAM_SUCCESS <->
  looked_at E args /\ In (lit "trust") args /\ exists a g, asks E args a /\ meant E args g /\ (v_member E a g = true <-> ~ In (lit "deny") args).
Proof.
  intros E args. split.
  - intro H. pose proof H as H0. destruct (wheel_options args) as (_ & T & D & RO & _). unfold wheel in H. destruct (v_get_user E) as [r user] eqn:G. destruct (Z.eqb_spec r PAM_SUCCESS) as [->|]; [|discriminate]. cbn [negb] in H.
    destruct (v_uid E user) as [u|] eqn:U; [|discriminate]. destruct (w_root_only (wheel_parse args) && negb (u =? 0)) eqn:R; [discriminate|].
    destruct (asker E (wheel_parse args)) as [a|] eqn:A; [|discriminate]. destruct (wheel_group E (wheel_parse args)) as [g|] eqn:W; [|destruct (w_deny (wheel_parse args)); discriminate].
    apply asker_iff in A. apply group_iff in W.
    assert (LA : looked_at E args).
    { exists user, u. split; [exact G|]. split; [exact U|]. intro I. apply RO in I. rewrite I in R. apply negb_false_iff, Z.eqb_eq in R. exact R. }
    split; [exact LA|]. destruct (v_member E a g) eqn:M; destruct (w_deny (wheel_parse args)) eqn:WD; try discriminate; destruct (w_trust (wheel_parse args)) eqn:WT; try discriminate;
      (split; [apply T; reflexivity|]); exists a, g; (split; [exact A|]); (split; [exact W|]); rewrite M; split.
    + intros _ I. apply D in I. discriminate.
    + reflexivity.
    + discriminate.
    + intro N. exfalso. apply N, D. reflexivity.
  - intros (LA & T & a & g & A & M & X). rewrite (wheel_decides E args a g LA A M). destruct (in_dec (list_eq_dec ascii_dec) (lit "trust") args) as [I2|N2]; [|contradiction].
    destruct (v_member E a g) eqn:V; destruct (in_dec (list_eq_dec ascii_dec) (lit "deny") args) as [I|N]; try reflexivity; exfalso.
    + apply X in I; [exact I|reflexivity].
    + apply X in N. discriminate.
Qed.

(** What is not known refuses, or leaves the decision to others with deny or for other targets than root. *)
Theorem wheel_unknown : forall E args, looked_at E args ->
  ((forall a, ~ asks E args a) -> wheel E args = PAM_SERVICE_ERR) /\
  (forall a, asks E args a -> (forall g, ~ meant E args g) -> wheel E args = if in_dec (list_eq_dec ascii_dec) (lit "deny") args then PAM_IGNORE else PAM_AUTH_ERR).
Proof.
  intros E args (user & u & G & U & R). destruct (wheel_options args) as (_ & T & D & RO & _). unfold wheel. rewrite G, Z.eqb_refl, U. cbn [negb].
  assert (X : w_root_only (wheel_parse args) && negb (u =? 0) = false).
  { destruct (w_root_only (wheel_parse args)); [|reflexivity]. rewrite R by (apply RO; reflexivity). reflexivity. }
  rewrite X. split.
  - intro N. destruct (asker E (wheel_parse args)) as [a|] eqn:A; [apply asker_iff in A; destruct (N a A)|reflexivity].
  - intros a A N. apply asker_iff in A. rewrite A. destruct (wheel_group E (wheel_parse args)) as [g|] eqn:W; [apply group_iff in W; destruct (N g W)|].
    destruct (in_dec (list_eq_dec ascii_dec) (lit "deny") args) as [I|NI]; destruct (w_deny (wheel_parse args)) eqn:WD; try reflexivity; exfalso; [apply D in I; discriminate|apply NI, D; reflexivity].
Qed.
Theorem wheel_root_only : forall E args user u, v_get_user E = (PAM_SUCCESS, user) -> v_uid E user = Some u -> In (lit "root_only") args -> u <> 0 -> wheel E args = PAM_IGNORE.
Proof.
  intros E args user u G U I N. destruct (wheel_options args) as (_ & _ & _ & RO & _). unfold wheel. rewrite G, Z.eqb_refl, U. cbn [negb]. apply RO in I. rewrite I. destruct (Z.eqb_spec u 0); [contradiction|reflexivity].
Qed.

Definition exW : wenv :=
  mkWenv (PAM_SUCCESS, lit "root") (fun u => if streq u (lit "root") then Some 0 else if streq u (lit "eve") then Some 7 else Some 8) (Some 9) (Some (lit "eve")) None None
    (fun g => if streq g (lit "wheel") then Some 10 else if streq g (lit "staff") then Some 20 else None) true (fun u g => (u =? 7) && (g =? 20)).
Example wheel_example : looked_at exW [lit "trust"; lit "group=staff"] /\ asks exW [lit "trust"; lit "group=staff"] 7 /\ meant exW [lit "trust"; lit "group=staff"] 20 /\
  wheel exW [lit "trust"; lit "group=staff"] = PAM_SUCCESS /\ wheel exW [lit "group=staff"] = PAM_IGNORE /\ wheel exW [] = PAM_PERM_DENIED /\
  wheel exW [lit "deny"; lit "group=staff"] = PAM_PERM_DENIED /\ wheel exW [lit "deny"; lit "group=nosuch"] = PAM_IGNORE /\ wheel exW [lit "group=nosuch"] = PAM_AUTH_ERR.
Proof.
  split; [exists (lit "root"), 0; auto|]. split; [apply asker_iff; reflexivity|]. split; [apply group_iff; reflexivity|]. vm_compute. repeat split.
Qed.

(** "The group's members are exactly those let through": with deny and a group that is gone, everyone is. *)
Theorem denied_group_gone_refuted : exists E args, looked_at E args /\ In (lit "deny") args /\ last_value (lit "group=") args (lit "nosuch") /\ wheel E args = PAM_IGNORE.
Proof.
  exists exW, [lit "deny"; lit "group=nosuch"]. split; [exists (lit "root"), 0; auto|]. split; [left; reflexivity|]. split; [exists [lit "deny"], []; split; [reflexivity|intros x w []]|]. reflexivity.
Qed.

(** ** pam_nologin *)

(** The file in force for the options. *)
Inductive notice (E : nenv) (args : list cstr) : option shown -> Prop :=
| n_named : forall f, last_value (lit "file=") args f -> notice E args (n_open E f)
| n_default : forall x, no_value (lit "file=") args -> n_open E (lit "/var/run/nologin") = Some x -> notice E args (Some x)
| n_compat : no_value (lit "file=") args -> n_open E (lit "/var/run/nologin") = None -> notice E args (n_open E (lit "/etc/nologin")).
(** A file that can be shown, and what of it. *)
Definition readable (f : shown) (m : option cstr) : Prop :=
  match f with
  | FStatErr => m = None
  | FDir => False
  | FFile size memory bytes => (size <= 0 /\ m = None) \/ (0 < size <= 2147483647 /\ memory = true /\ Z.of_nat (length bytes) = size /\ m = Some (cut bytes))
  end.

Lemma nologin_fold : forall args o,
  let p := fold_left (fun o a => if streq (lit "successok") a then (PAM_SUCCESS, snd o) else match skip_prefix (lit "file=") a with Some f => (fst o, Some f) | None => o end) args o in
  (In (lit "successok") args -> fst p = PAM_SUCCESS) /\ (~ In (lit "successok") args -> fst p = fst o) /\
  ((no_value (lit "file=") args /\ snd p = snd o) \/ exists f, snd p = Some f /\ last_value (lit "file=") args f).
Proof.
  induction args as [|a args IH]; intro o; cbn [fold_left].
  - split; [intros []|]. split; [reflexivity|]. left. split; [intros x w []|reflexivity].
  - match goal with |- context [fold_left _ args ?X] => set (o' := X) end. specialize (IH o'). cbv zeta in IH |- *. destruct IH as (A & B & C).
    assert (O : (a = lit "successok" /\ o' = (PAM_SUCCESS, snd o)) \/ (a <> lit "successok" /\ fst o' = fst o /\ ((exists f, a = (lit "file=" ++ f)%list /\ snd o' = Some f) \/ (forall w, a <> (lit "file=" ++ w)%list) /\ snd o' = snd o))).
    { unfold o'. destruct (streq (lit "successok") a) eqn:S1; [left; apply streq_eq in S1; auto|]. right. split; [intros ->; rewrite streq_refl in S1; discriminate|].
      destruct (skip_prefix (lit "file=") a) as [f|] eqn:SK; (split; [reflexivity|]); [left; exists f; split; [apply skip_prefix_some; exact SK|reflexivity]|right].
      split; [|reflexivity]. intros w ->. rewrite skip_prefix_app in SK. discriminate. }
    clearbody o'. cbn [In]. destruct O as [(-> & ->)|(N & F & S1)].
    + split; [intros _; destruct (in_dec (list_eq_dec ascii_dec) (lit "successok") args) as [I|I]; [apply A; exact I|rewrite (B I); reflexivity]|].
      split; [intro X; exfalso; apply X; left; reflexivity|]. destruct C as [(C1 & C2)|(f & C1 & (p & q & -> & C2))].
      * left. split; [|exact C2]. intros x w [<-|I]; [discriminate|apply C1; exact I].
      * right. exists f. split; [exact C1|]. exists (lit "successok" :: p), q. auto.
    + split; [intros [X|X]; [contradiction|apply A; exact X]|]. split; [intro X; rewrite B by tauto; exact F|].
      destruct C as [(C1 & C2)|(f & C1 & (p & q & -> & C2))].
      * destruct S1 as [(f & -> & S1)|(S1 & S2)].
        -- right. exists f. split; [etransitivity; [exact C2|exact S1]|]. exists [], args. split; [reflexivity|exact C1].
        -- left. split; [|etransitivity; [exact C2|exact S2]]. intros x w [<-|I]; [apply S1|apply C1; exact I].
      * right. exists f. split; [exact C1|]. exists (a :: p), q. auto.
Qed.

Lemma nologin_options : forall args, (In (lit "successok") args -> fst (nologin_parse args) = PAM_SUCCESS) /\ (~ In (lit "successok") args -> fst (nologin_parse args) = PAM_IGNORE) /\
  ((no_value (lit "file=") args /\ snd (nologin_parse args) = None) \/ exists f, snd (nologin_parse args) = Some f /\ last_value (lit "file=") args f).
Proof. intro args. pose proof (nologin_fold args (PAM_IGNORE, None)) as H. cbv zeta in H. exact H. Qed.

Lemma notice_open : forall E args x, notice E args x ->
  match snd (nologin_parse args) with None => match n_open E (lit "/var/run/nologin") with Some f => Some f | None => n_open E (lit "/etc/nologin") end | Some f => n_open E f end = x.
Proof.
  intros E args x H. destruct (nologin_options args) as (_ & _ & [(N & P)|(f & P & L)]); rewrite P.
  - destruct H as [f L|x _ O|_ O]; [destruct (no_last _ _ _ N L)|rewrite O; reflexivity|rewrite O; reflexivity].
  - destruct H as [f' L'|x N O|N O]; [rewrite (last_value_unique _ _ _ _ L L'); reflexivity|destruct (no_last _ _ _ N L)|destruct (no_last _ _ _ N L)].
Qed.

(** What a call without an opinion returns. *)
Definition pass (args : list cstr) : Z := if in_dec (list_eq_dec ascii_dec) (lit "successok") args then PAM_SUCCESS else PAM_IGNORE.
Lemma pass_iff : forall args, fst (nologin_parse args) = pass args.
Proof. intro args. destruct (nologin_options args) as (A & B & _). unfold pass. destruct (in_dec (list_eq_dec ascii_dec) (lit "successok") args); auto. Qed.

(** Without a notice everyone passes. *)
Theorem no_notice_passes : forall E args user, n_get_user E = (PAM_SUCCESS, user) -> notice E args None -> nologin E args = (pass args, None).
Proof.
  intros E args user G N. apply notice_open in N. unfold nologin. rewrite <- pass_iff. destruct (nologin_parse args) as [nf name]. cbn [fst snd] in *. rewrite G, Z.eqb_refl. cbn [negb]. rewrite N. reflexivity.
Qed.

(** With a notice only root passes, and only if it can be shown; everyone is shown what there is to show. *)
Theorem notice_refuses : forall E args user f, n_get_user E = (PAM_SUCCESS, user) -> notice E args (Some f) ->
  (forall m, readable f m -> nologin E args =
     (match n_uid E user with None => PAM_USER_UNKNOWN | Some u => if u =? 0 then pass args else PAM_AUTH_ERR end,
      match m with None => None | Some t => Some (match n_uid E user with Some 0 => false | _ => true end, t) end)) /\
  ((forall m, ~ readable f m) -> (fst (nologin E args) = PAM_SYSTEM_ERR \/ fst (nologin E args) = PAM_BUF_ERR) /\ snd (nologin E args) = None).
Proof.
  intros E args user f G N. apply notice_open in N. unfold nologin. rewrite <- pass_iff. destruct (nologin_parse args) as [nf name]. cbn [fst snd] in *. rewrite G, Z.eqb_refl. cbn [negb]. rewrite N. split.
  - intros m R. destruct f as [| |size memory bytes]; cbn [readable] in R.
    + subst m. destruct (n_uid E user) as [u|]; [destruct (Z.eqb_spec u 0)|]; reflexivity.
    + destruct R.
    + destruct R as [(L & ->)|(L & -> & B & ->)].
      * assert (X : size <=? 0 = true) by (apply Z.leb_le; lia). rewrite X. destruct (n_uid E user) as [u|]; [destruct (Z.eqb_spec u 0)|]; reflexivity.
      * assert (X : size <=? 0 = false) by (apply Z.leb_gt; lia). assert (Y : 2147483647 <? size = false) by (apply Z.ltb_ge; lia). rewrite X, Y. cbn [negb]. rewrite B, Z.eqb_refl.
        destruct (n_uid E user) as [u|]; [destruct (Z.eqb_spec u 0) as [->|Q]; [reflexivity|]|reflexivity]. destruct u; [contradiction|reflexivity|reflexivity].
  - intro R. destruct f as [| |size memory bytes]; cbn [readable] in R.
    + destruct (R None eq_refl).
    + destruct (n_uid E user) as [u|]; [destruct (u =? 0)|]; cbn; auto.
    + destruct (Z.leb_spec size 0) as [L|L]; [exfalso; apply (R None); auto|].
      assert (Q : forall (A B : Z * bool) (c : bool) (o : option Z), True) by auto.
      destruct (match n_uid E user with Some u => if u =? 0 then (nf, false) else (PAM_AUTH_ERR, true) | None => (PAM_USER_UNKNOWN, true) end) as [rv er].
      destruct (Z.ltb_spec 2147483647 size) as [M|M]; [cbn; auto|]. destruct memory; [cbn [negb]|cbn; auto].
      destruct (Z.eqb_spec (Z.of_nat (length bytes)) size) as [B|B]; [exfalso; apply (R (Some (cut bytes))); right; auto|cbn; auto].
Qed.

(** So somebody other than root is never let through while a notice can be opened. *)
Corollary notice_stops_users : forall E args user f u, n_get_user E = (PAM_SUCCESS, user) -> notice E args (Some f) -> n_uid E user = Some u -> u <> 0 ->
  In (fst (nologin E args)) [PAM_AUTH_ERR; PAM_SYSTEM_ERR; PAM_BUF_ERR].
Proof.
  intros E args user f u G N U NZ. destruct (notice_refuses E args user f G N) as (A & B).
  assert (D : (exists m, readable f m) \/ forall m, ~ readable f m).
  { destruct f as [| |size memory bytes]; cbn [readable]; [left; eexists; reflexivity|right; auto|].
    destruct (Z_le_gt_dec size 0); [left; exists None; auto|]. destruct (Z_le_gt_dec size 2147483647); [|right; intros m [(X & _)|(X & _)]; lia]. destruct memory; [|right; intros m [(X & _)|(_ & X & _)]; [lia|discriminate]].
    destruct (Z.eq_dec (Z.of_nat (length bytes)) size); [left; exists (Some (cut bytes)); right; repeat split; lia || assumption|right; intros m [(X & _)|(_ & _ & X & _)]; [lia|contradiction]]. }
  destruct D as [(m & D)|D].
  - rewrite (A m D), U. destruct (Z.eqb_spec u 0); [contradiction|]. left. reflexivity.
  - destruct (B D) as ([X|X] & _); rewrite X; [right; left; reflexivity|right; right; left; reflexivity].
Qed.

Definition exN (u : Z) (f : shown) : nenv := mkNenv (PAM_SUCCESS, lit "x") (fun p => if streq p (lit "/etc/nologin") then Some f else None) (fun _ => Some u).
Example nologin_example : notice (exN 7 (FFile 3 true (lit "bye"))) [] (Some (FFile 3 true (lit "bye"))) /\ readable (FFile 3 true (lit "bye")) (Some (lit "bye")) /\
  nologin (exN 7 (FFile 3 true (lit "bye"))) [] = (PAM_AUTH_ERR, Some (true, lit "bye")) /\ nologin (exN 0 (FFile 3 true (lit "bye"))) [] = (PAM_IGNORE, Some (false, lit "bye")) /\
  nologin (exN 7 FStatErr) [lit "file=/none"; lit "successok"] = (PAM_SUCCESS, None).
Proof.
  split; [apply n_compat; [intros x w []|reflexivity]|]. split; [right; repeat split; lia|]. vm_compute. repeat split.
Qed.

(** "A notice never stops root": one that is a directory does. *)
Theorem root_passes_refuted : exists E args f, n_get_user E = (PAM_SUCCESS, lit "x") /\ n_uid E (lit "x") = Some 0 /\ notice E args (Some f) /\ nologin E args = (PAM_SYSTEM_ERR, None).
Proof. exists (exN 0 FDir), [], FDir. split; [reflexivity|]. split; [reflexivity|]. split; [apply n_compat; [intros x w []|reflexivity]|reflexivity]. Qed.

(** ** pam_shells *)

(** The shell of an entry: the empty one stands for /bin/sh. *)
Definition shell_of (sh : cstr) (s : cstr) : Prop := (sh <> [] /\ s = sh) \/ (sh = [] /\ s = lit "/bin/sh").

(** The user passes exactly if their shell is a path named on a line of /etc/shells, a file that others cannot write. *)
Theorem shells_decides : forall E, shells E = PAM_SUCCESS <->
  exists user sh s text, s_get_user E = (PAM_SUCCESS, user) /\ s_pw E user = Some (Some sh) /\ shell_of sh s /\ s_stat E = Some (false, true) /\ s_open E = Some text /\
    (exists r, s = c_slash :: r) /\ entry [c_nl] text s.
Proof.
  intro E. unfold shells.
  assert (C : check_file E = true <-> s_stat E = Some (false, true)) by (unfold check_file; destruct (s_stat E) as [[[] []]|]; cbn; split; congruence).
  assert (L : forall text s, existsb (fun l => match chomp [c_nl] l with c :: _ => Ascii.eqb c c_slash && streq (chomp [c_nl] l) s | [] => false end) (lines_of text) = true <->
    (exists r, s = c_slash :: r) /\ entry [c_nl] text s).
  { intros text s. rewrite <- (chomp_entry [c_nl] text s (or_introl eq_refl)), existsb_exists. split.
    - intros (l & I & X). destruct (chomp [c_nl] l) as [|c e] eqn:CH; [discriminate|]. apply andb_true_iff in X. destruct X as (X & Y). apply Ascii.eqb_eq in X. apply streq_eq in Y. subst. split; [eauto|]. exists l. auto.
    - intros ((r & ->) & l & I & X). exists l. split; [exact I|]. rewrite X, Ascii.eqb_refl, streq_refl. reflexivity. }
  destruct (s_get_user E) as [r user] eqn:G. destruct (Z.eqb_spec r PAM_SUCCESS) as [->|NR]; cbn [negb].
  - destruct (s_pw E user) as [[sh|]|] eqn:P.
    + assert (SO : shell_of sh (match sh with [] => lit "/bin/sh" | _ => sh end)) by (destruct sh; [right|left]; split; congruence).
      assert (SU : forall s, shell_of sh s -> s = match sh with [] => lit "/bin/sh" | _ => sh end) by (intros s [(N & ->)|(-> & ->)]; [destruct sh; [contradiction|reflexivity]|reflexivity]).
      destruct (check_file E) eqn:CF; cbn [negb].
      * destruct (s_open E) as [text|] eqn:O.
        -- split.
           ++ intro H. destruct (existsb _ (lines_of text)) eqn:EX in H; [|discriminate]. apply L in EX. exists user, sh, (match sh with [] => lit "/bin/sh" | _ => sh end), text. repeat split; try assumption; try (apply C; reflexivity); apply EX.
           ++ intros (user' & sh' & s & text' & G' & P' & S1 & _ & O' & X). injection G' as <-. rewrite P in P'. injection P' as <-. injection O' as <-. apply SU in S1. subst s.
              apply L in X. rewrite X. reflexivity.
        -- split; [discriminate|]. intros (user' & sh' & s & text' & _ & _ & _ & _ & O' & _). discriminate.
      * split; [discriminate|]. intros (user' & sh' & s & text' & _ & _ & _ & ST & _). apply C in ST. congruence.
    + split; [discriminate|]. intros (user' & sh' & s & text' & G' & P' & _). congruence.
    + split; [discriminate|]. intros (user' & sh' & s & text' & G' & P' & _). congruence.
  - split; [discriminate|]. intros (user' & sh' & s & text' & G' & _). congruence.
Qed.
(** Otherwise the answer is an error. *)
Theorem shells_codes : forall E, In (shells E) [PAM_SUCCESS; PAM_AUTH_ERR; PAM_SERVICE_ERR; PAM_USER_UNKNOWN].
Proof.
  intro E. unfold shells. destruct (s_get_user E) as [r user]. destruct (negb (r =? PAM_SUCCESS)); [right; right; left; reflexivity|].
  destruct (s_pw E user) as [[sh|]|]; [|right; left; reflexivity|right; right; right; left; reflexivity].
  destruct (negb (check_file E)); [right; left; reflexivity|]. destruct (s_open E) as [text|]; [|right; right; left; reflexivity].
  destruct (existsb _ (lines_of text)); [left; reflexivity|right; left; reflexivity].
Qed.
Definition exS (sh : string) : senv := mkSenv (PAM_SUCCESS, lit "x") (fun _ => Some (Some (lit sh))) (Some (false, true)) (Some (lit "# shells" ++ c_nl :: lit "/bin/sh" ++ c_nl :: lit "bash" ++ [c_nl])%list).
Example shells_example : shells (exS "/bin/sh") = PAM_SUCCESS /\ shells (exS "") = PAM_SUCCESS /\ shells (exS "bash") = PAM_AUTH_ERR /\ shells (exS "/bin/s") = PAM_AUTH_ERR.
Proof. vm_compute. repeat split. Qed.

Print Assumptions wheel_decides.
Print Assumptions wheel_success.
Print Assumptions wheel_unknown.
Print Assumptions wheel_root_only.
Print Assumptions denied_group_gone_refuted.
Print Assumptions no_notice_passes.
Print Assumptions notice_refuses.
Print Assumptions notice_stops_users.
Print Assumptions root_passes_refuted.
Print Assumptions shells_decides.
Print Assumptions shells_codes.
