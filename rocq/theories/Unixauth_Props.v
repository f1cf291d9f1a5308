(** C36: authentication by pam_unix: who gets in, counting failures, the value kept for pam_setcred. *)
From Coq Require Import String Ascii List Arith NArith ZArith Lia Bool.
From Verif Require Import Base Num_Model Inline_Model Inline_Props Unixctl_Model Unixctl_Props Unix_Model Unixage_Props Unixpw_Props.
Import ListNotations.
Local Open Scope Z_scope.

Section Auth.
Variable crypt md5_good md5_broken : cstr -> cstr -> option cstr.
Variable fuel : nat.
Notation verify_hash := (verify_hash crypt md5_good md5_broken).
Notation run_helper := (run_helper crypt md5_good md5_broken fuel).
Notation verify_user := (verify_user crypt md5_good md5_broken fuel).
Notation verify_password := (verify_password crypt md5_good md5_broken fuel).
Notation blank_turn := (blank_turn crypt md5_good md5_broken fuel).
Notation blankpasswd := (blankpasswd crypt md5_good md5_broken fuel).
Notation authenticate := (authenticate crypt md5_good md5_broken fuel).
Notation right := (right crypt md5_good md5_broken).

(** The helper has a whole buffer and its reads come to an end. *)
Definition sane (e : uenv) : Prop := forall i k buf plan, e_how e i = RRuns k buf plan -> length buf = CAP /\ (length plan + 514 < fuel)%nat.
(** Who may look at the hash: this process, or a helper it runs. *)
Definition may_look (e : uenv) (name : cstr) (priv : bool) : Prop :=
  priv = e_priv e \/ exists i k buf plan, e_how e i = RRuns k buf plan /\ helper_priv k name = Some priv.
(** Empty passwords are allowed by the options, or the password has to be changed anyway and then they are. *)
Definition empty_allowed (e : uenv) (d : db) (ctrl : N) (name : cstr) : Prop :=
  off NONULL ctrl = true \/ on NULLRESETOK ctrl = true /\ exists days, verify_user e d ctrl name 0 = Ok (12, days).

Lemma direct_hash : forall mem try priv d name pw h, hash_of mem (account_info try priv d name) = (0, pw, Some h) -> stored d priv name h.
Proof.
  intros mem try priv d name pw h H. unfold account_info in H. destruct (getpw d name) as [p|] eqn:G; [|discriminate]. exists p. split; [exact G|].
  rewrite is_shadowed_mark in H. destruct (shadow_mark p).
  - destruct try; [|discriminate]. destruct (getsp d priv name) as [s|]; [|discriminate]. exists s. split; [reflexivity|]. destruct (sp_pwdp s) as [x|] eqn:E; [|discriminate].
    destruct (streq name (lit "root") && streq x (lit "!*")); [discriminate|]. unfold hash_of in H. cbn in H. rewrite E in H. destruct mem; [|discriminate]. congruence.
  - unfold hash_of in H. cbn in H. destruct mem; [|discriminate]. congruence.
Qed.
Lemma hash_of_cases : forall mem try priv d name rv pw h, hash_of mem (account_info try priv d name) = (rv, pw, h) ->
  rv = 0 /\ (exists x, h = Some x) \/ rv = 5 /\ mem = false /\ h = None \/ rv = 8 /\ h = None /\ (exists p, pw = Some p) \/ rv = 10 /\ h = None /\ pw = None /\ getpw d name = None.
Proof.
  intros mem try priv d name rv pw h H. unfold account_info in H. destruct (getpw d name) as [p|] eqn:G.
  2:{ unfold hash_of in H. cbn in H. injection H as <- <- <-. right. right. right. auto. }
  assert (HS : forall s, hash_of mem (0, Some p, s) = (rv, pw, h) -> (forall y, s = Some y -> sp_pwdp y <> None) -> rv = 0 /\ (exists x, h = Some x) \/ rv = 5 /\ mem = false /\ h = None \/ rv = 8 /\ h = None /\ (exists p, pw = Some p) \/ rv = 10 /\ h = None /\ pw = None /\ Some p = None).
  { intros s HH NN. unfold hash_of in HH. cbn in HH. destruct s as [y|]; [|cbn in HH].
    - specialize (NN y eq_refl). destruct (sp_pwdp y) as [x|]; [|congruence]. destruct mem; injection HH as <- <- <-; [left; eauto|right; left; auto].
    - destruct mem; injection HH as <- <- <-; [left; eauto|right; left; auto]. }
  assert (HR : forall s, hash_of mem (8, Some p, s) = (rv, pw, h) -> rv = 0 /\ (exists x, h = Some x) \/ rv = 5 /\ mem = false /\ h = None \/ rv = 8 /\ h = None /\ (exists p, pw = Some p) \/ rv = 10 /\ h = None /\ pw = None /\ Some p = None).
  { intros s HH. unfold hash_of in HH. cbn in HH. injection HH as <- <- <-. right. right. left. eauto. }
  destruct (is_shadowed p); [|apply (HS None H); discriminate]. destruct try; [|apply (HR None H)]. destruct (getsp d priv name) as [s|]; [|apply (HR None H)]. destruct (sp_pwdp s) as [x|] eqn:E; [|apply (HR _ H)].
  destruct (streq name (lit "root") && streq x (lit "!*")); [apply (HR _ H)|]. apply (HS _ H). intros y Q. injection Q as <-. congruence.
Qed.

(** The empty string, sent for a NULL password. *)
Lemma helper_null : forall how d ctrl name, run_helper how d None ctrl name = run_helper how d (Some []) ctrl name.
Proof. intros [| | |k buf plan] d ctrl name; reflexivity. Qed.
Lemma helper_right : forall e i d p ctrl name, sane e -> is_cstr p -> run_helper (e_how e i) d (Some p) ctrl name = Ok 0 ->
  exists priv h, may_look e name priv /\ stored d priv name h /\ (right (off NONULL ctrl) (firstn 512 p) h \/ off NONULL ctrl = true /\ right true [] h).
Proof.
  intros e i d p ctrl name S C H. destruct (e_how e i) as [| | |k buf plan] eqn:E; [discriminate|discriminate|discriminate|]. destruct (S _ _ _ _ E) as [L FU].
  destruct (helper_success_is_right _ _ _ _ _ _ _ _ _ _ _ C L FU H) as (priv & h & HP & ST & R). exists priv, h. split; [right; eauto 6|]. auto.
Qed.
Lemma right_weaker : forall nullok p h, right nullok p h -> right true p h.
Proof. intros nullok p h [A B _|x EF NE ND NS NX G]; [apply RightEmpty; auto|]. eapply RightHash; eauto. Qed.

Lemma blank_turn_2 : forall e d ctrl st name blank salt r, getpw d nonexistent = None -> st = (name, blank, true, salt) -> name = nonexistent -> blank_turn e d ctrl 2 st = Ok r ->
  exists c s n, r = (n, blank, c, s).
Proof.
  intros e d ctrl st name blank salt r NE -> -> H. unfold Unix_Model.blank_turn in H. unfold account_info in H. rewrite NE in H. unfold hash_of in H. cbn in H. injection H as <-. eauto.
Qed.
Lemma blank_turn_3 : forall e d ctrl name salt i r, blank_turn e d ctrl i (name, false, false, salt) = Ok r -> exists n s c, r = (n, false, c, s).
Proof.
  intros e d ctrl name salt i r H. unfold Unix_Model.blank_turn in H. destruct (hash_of _ _) as [[rv pw] hash]. destruct (rv =? RUN_HELPER).
  - destruct (run_helper _ _ _ _ _) as [hv| |]; cbn [bind] in H; try discriminate. destruct (hv =? 0); injection H as <-; eauto.
  - destruct (rv =? 10); [injection H as <-; eauto|]. destruct (match hash with Some h => Some h | None => salt end) as [[|]|]; injection H as <-; eauto.
Qed.
Lemma set_nullok_off : forall ctrl, off NONULL (set NULLOK ctrl) = true.
Proof.
  intros ctrl. rewrite off_eq. rewrite (on_testbit NONULL 9) by (vm_compute; reflexivity). rewrite set_bit. replace (N.testbit (mask_of NULLOK) 9) with false by (vm_compute; reflexivity). replace (N.testbit (flag_of NULLOK) 9) with false by (vm_compute; reflexivity). rewrite andb_false_r. reflexivity.
Qed.

Lemma blank_is_blank : forall e d ctrl name, sane e -> getpw d nonexistent = None -> blankpasswd e d ctrl name = Ok true ->
  empty_allowed e d ctrl name /\ exists priv h, may_look e name priv /\ stored d priv name h /\ right true [] h.
Proof.
  intros e d ctrl name S NE H. unfold Unix_Model.blankpasswd in H.
  assert (exists ctrl', (off NONULL ctrl' = true -> empty_allowed e d ctrl name) /\ (if on NONULL ctrl' then Ok false else
    bind (blank_turn e d ctrl' 1 (name, false, true, None)) (fun st => bind (blank_turn e d ctrl' 2 st) (fun st => let '(_, blank, _, _) := st in Ok blank))) = Ok true) as (ctrl' & EA & H').
  { destruct (on NULLRESETOK ctrl) eqn:EN.
    - destruct (verify_user e d ctrl name 0) as [[rv days]| |] eqn:EV; cbn [bind] in H; try discriminate. destruct (Z.eqb_spec rv 12) as [->|N].
      + exists (set NULLOK ctrl). split; [|exact H]. intros _. right. eauto.
      + exists ctrl. split; [|exact H]. intros Q. left. exact Q.
    - exists ctrl. split; [|exact H]. intros Q. left. exact Q. }
  clear H. destruct (on NONULL ctrl') eqn:EN; [discriminate|]. assert (OF : off NONULL ctrl' = true) by (rewrite off_eq, EN; reflexivity). split; [apply EA, OF|].
  destruct (blank_turn e d ctrl' 1 (name, false, true, None)) as [st| |] eqn:E1; cbn [bind] in H'; try discriminate.
  destruct (blank_turn e d ctrl' 2 st) as [st2| |] eqn:E2; cbn [bind] in H'; try discriminate.
  unfold Unix_Model.blank_turn in E1. destruct (hash_of (e_mem e 1%nat) (account_info (e_try e) (e_priv e) d name)) as [[rv pw] hash] eqn:EH.
  destruct (hash_of_cases _ _ _ _ _ _ _ _ EH) as [(-> & x & ->)|[(-> & _ & ->)|[(-> & -> & _)|(-> & -> & _)]]].
  - cbn in E1. destruct x as [|c x].
    + exists (e_priv e), []. split; [left; reflexivity|]. split; [eapply direct_hash; exact EH|apply RightEmpty; reflexivity].
    + injection E1 as <-. destruct (blank_turn_2 _ _ _ _ _ _ _ _ NE eq_refl eq_refl E2) as (c2 & s2 & n2 & ->). discriminate.
  - cbn in E1. injection E1 as <-. destruct (blank_turn_2 _ _ _ _ _ _ _ _ NE eq_refl eq_refl E2) as (c2 & s2 & n2 & ->). discriminate.
  - change (8 =? RUN_HELPER) with true in E1. cbv iota in E1. destruct (run_helper (e_how e 1%nat) d None ctrl' name) as [hv| |] eqn:ER; cbn [bind] in E1; try discriminate. injection E1 as <-.
    destruct (blank_turn_2 _ _ _ _ _ _ _ _ NE eq_refl eq_refl E2) as (c2 & s2 & n2 & ->). injection H' as H'. destruct (Z.eqb_spec hv 0) as [->|N]; [|discriminate].
    rewrite helper_null in ER. destruct (helper_right e 1 d [] ctrl' name S (fun x => x) ER) as (priv & h & ML & ST & [R|[_ R]]); exists priv, h; (split; [exact ML|]); (split; [exact ST|]); auto. eapply right_weaker. exact R.
  - cbn in E1. injection E1 as <-. destruct (blank_turn_3 _ _ _ _ _ _ _ E2) as (n3 & s3 & c3 & ->). discriminate.
Qed.

Lemma record_zero : forall memn memf f name rv f', record_failure memn memf f name rv = (0, f') -> rv = 0.
Proof.
  intros memn memf f name rv f' H. unfold record_failure in H. destruct (Z.eqb_spec rv 0) as [->|N]; [reflexivity|]. destruct (memn && memf); [|congruence]. destruct (f name) as [n|]; [|congruence]. destruct (MAX_RETRIES <=? n + 1); [discriminate|congruence].
Qed.
Lemma verified_is_right : forall e d ctrl f name p f', sane e -> is_cstr p -> verify_password e d ctrl f name p = Ok (0, f') ->
  exists priv h, may_look e name priv /\ stored d priv name h /\ (right (off NONULL ctrl) (firstn 512 p) h \/ off NONULL ctrl = true /\ right true [] h).
Proof.
  intros e d ctrl f name p f' S C H. unfold Unix_Model.verify_password in H. cbv zeta in H. destruct (hash_of (e_mem e 3%nat) (account_info (e_try e) (e_priv e) d name)) as [[rv pw] hash] eqn:EH.
  destruct (hash_of_cases _ _ _ _ _ _ _ _ EH) as [(-> & x & ->)|[(-> & _ & ->)|[(-> & -> & _)|(-> & -> & _)]]].
  - cbn [Z.eqb] in H. destruct (verify_hash (e_mem e 4%nat) (Some (firstn 512 p)) x (off NONULL ctrl)) as [v| |] eqn:EV; cbn [bind] in H; try discriminate. injection H as H. apply record_zero in H. subst v.
    exists (e_priv e), x. split; [left; reflexivity|]. split; [eapply direct_hash; exact EH|]. destruct (accepted_is_right _ _ _ _ _ _ _ EV) as (w & Q & R). injection Q as <-. auto.
  - exfalso. change (5 =? RUN_HELPER) with false in H. cbn [Z.eqb] in H. destruct (on AUDIT ctrl || on DEBUG ctrl); [injection H as H; apply record_zero in H; discriminate|]. destruct pw; [discriminate|injection H as H; apply record_zero in H; discriminate].
  - change (8 =? RUN_HELPER) with true in H. cbn [Z.eqb] in H. destruct (run_helper (e_how e 3%nat) d (Some (firstn 512 p)) ctrl name) as [v| |] eqn:ER; cbn [bind] in H; try discriminate. injection H as H. apply record_zero in H. subst v.
    destruct (helper_right e 3 d (firstn 512 p) ctrl name S (is_cstr_firstn _ _ C) ER) as (priv & h & ML & ST & R). exists priv, h. rewrite firstn_firstn in R. auto.
  - exfalso. change (10 =? RUN_HELPER) with false in H. cbn [Z.eqb] in H. destruct (on AUDIT ctrl || on DEBUG ctrl); [injection H as H; apply record_zero in H; discriminate|]. destruct pw; [discriminate|injection H as H; apply record_zero in H; discriminate].
Qed.

(** C36.  pam_unix lets a user in only if the password obtained (its first 512 characters) is right for the user's hash
    field, or empty passwords are allowed and the empty password is right for it. *)
Theorem let_in_only_with_password : forall e d ctrl f urv name trv p kept f', sane e -> getpw d nonexistent = None -> is_cstr p ->
  authenticate e d ctrl f (urv, name) (trv, p) = Ok (0, kept, f') ->
  urv = 0 /\ kept = Some 0 /\ exists priv h, may_look e name priv /\ stored d priv name h /\
    (trv = 0 /\ right (off NONULL ctrl) (firstn 512 p) h \/ empty_allowed e d ctrl name /\ right true [] h).
Proof.
  intros e d ctrl f urv name trv p kept f' S NE C H. unfold Unix_Model.authenticate in H. destruct (e_mem e 7%nat); cbn [negb] in H; [|discriminate]. destruct (Z.eqb_spec urv 0) as [->|N]; cbn [negb] in H.
  2:{ exfalso. destruct (urv =? 30); [discriminate|]. congruence. }
  destruct (match name with c :: _ => Ascii.eqb c "-" || Ascii.eqb c "+" | [] => false end); [discriminate|]. destruct (blankpasswd e d ctrl name) as [b| |] eqn:EB; cbn [bind] in H; try discriminate. split; [reflexivity|]. destruct b.
  - injection H as <- _. destruct (blank_is_blank _ _ _ _ S NE EB) as (EA & priv & h & ML & ST & R). split; [reflexivity|]. exists priv, h. auto.
  - destruct (Z.eqb_spec trv 0) as [->|N]; cbn [negb] in H. 2:{ exfalso. destruct (trv =? 30); [discriminate|]. congruence. }
    destruct (verify_password e d ctrl f name p) as [[rv f2]| |] eqn:EV; cbn [bind] in H; try discriminate. injection H as -> <- _. split; [reflexivity|].
    destruct (verified_is_right _ _ _ _ _ _ _ S C EV) as (priv & h & ML & ST & [R|[OF R]]); exists priv, h; (split; [exact ML|]); (split; [exact ST|]); [left; auto|right]. split; [left; exact OF|exact R].
Qed.

(** ** Counting failures *)
(** One attempt: circumstances, databases, options, user and password, each possibly different. *)
Record attempt := mkA { a_env : uenv; a_db : db; a_ctrl : N; a_name : cstr; a_pass : cstr }.
Definition tried (a : attempt) (f : failures) : res (Z * failures) := verify_password (a_env a) (a_db a) (a_ctrl a) f (a_name a) (a_pass a).
(** What the attempt gives in a handle without earlier attempts. *)
Definition fresh (a : attempt) (rv : Z) : Prop := exists f, tried a (fun _ => None) = Ok (rv, f).
(** The results of attempts made one after the other. *)
Inductive series : failures -> list (attempt * Z) -> failures -> Prop :=
| SNone : forall f, series f [] f
| SMore : forall f a rv f1 l f2, tried a f = Ok (rv, f1) -> series f1 l f2 -> series f ((a, rv) :: l) f2.
(** How often the user failed since the last success, newest last. *)
Fixpoint failed_in_a_row (name : cstr) (l : list (attempt * Z)) (n : Z) : Z :=
  match l with
  | [] => n
  | (a, rv) :: l => failed_in_a_row name l (if streq (a_name a) name then (if rv =? 0 then 0 else n + 1) else n)
  end.
Definition enough_memory (a : attempt) : Prop := forall i, In i [3; 5; 6]%nat -> e_mem (a_env a) i = true.

Definition count (f : failures) (name : cstr) : Z := match f name with Some n => n | None => 0 end.
Lemma set_failures_same : forall f name v, set_failures f name v name = v.
Proof. intros. unfold set_failures. rewrite streq_refl. reflexivity. Qed.
Lemma tried_step : forall a f rv f', enough_memory a -> tried a f = Ok (rv, f') -> exists raw, fresh a raw /\
  rv = (if raw =? 0 then 0 else if 2 <=? count f (a_name a) then 11 else raw) /\
  (forall n, count f' n = if streq (a_name a) n then (if raw =? 0 then 0 else count f n + 1) else count f n).
Proof.
  intros a f rv f' EM H. pose proof (EM 3%nat ltac:(cbn; auto)) as M3. pose proof (EM 5%nat ltac:(cbn; auto)) as M5. pose proof (EM 6%nat ltac:(cbn; auto)) as M6.
  assert (FIN : forall raw (x : res (Z * failures)), x = Ok (rv, f') -> x = Ok (record_failure true true f (a_name a) raw) -> 
    rv = (if raw =? 0 then 0 else if 2 <=? count f (a_name a) then 11 else raw) /\
    (forall n, count f' n = if streq (a_name a) n then (if raw =? 0 then 0 else count f n + 1) else count f n)).
  { intros raw x X Y. rewrite X in Y. injection Y as Y. unfold record_failure in Y. cbn [andb] in Y.
    assert (SN : forall n, streq n (a_name a) = streq (a_name a) n).
    { intros n. destruct (streq n (a_name a)) eqn:E1; [apply streq_eq in E1; subst n; symmetry; apply streq_refl|]. destruct (streq (a_name a) n) eqn:E2; [|reflexivity]. apply streq_eq in E2. rewrite E2, streq_refl in E1. discriminate. }
    destruct (Z.eqb_spec raw 0) as [->|N].
    - injection Y as -> ->. split; [reflexivity|]. intros n. unfold count, set_failures. rewrite SN. destruct (streq (a_name a) n); reflexivity.
    - unfold MAX_RETRIES in Y. destruct (f (a_name a)) as [k|] eqn:EF; injection Y as -> ->.
      + split; [unfold count; rewrite EF; destruct (Z.leb_spec 3 (k + 1)), (Z.leb_spec 2 k); lia|]. intros n. unfold count, set_failures. rewrite SN. destruct (streq (a_name a) n) eqn:E; [|reflexivity]. apply streq_eq in E. subst n. rewrite EF. reflexivity.
      + split; [unfold count; rewrite EF; reflexivity|]. intros n. unfold count, set_failures. rewrite SN. destruct (streq (a_name a) n) eqn:E; [|reflexivity]. apply streq_eq in E. subst n. rewrite EF. reflexivity. }
  assert (FR : forall raw, tried a (fun _ => None) = Ok (record_failure true true (fun _ => None) (a_name a) raw) -> fresh a raw).
  { intros raw X. unfold fresh. rewrite X. unfold record_failure. destruct (Z.eqb_spec raw 0) as [->|]; cbn [andb]; eauto. }
  unfold tried, Unix_Model.verify_password in *. cbv zeta in *. rewrite M3, M5, M6 in *.
  destruct (hash_of true (account_info (e_try (a_env a)) (e_priv (a_env a)) (a_db a) (a_name a))) as [[rv0 pw] hash] eqn:EH.
  destruct (hash_of_cases _ _ _ _ _ _ _ _ EH) as [(-> & x & ->)|[(_ & Q & _)|[(-> & -> & _)|(-> & -> & -> & _)]]]; [|discriminate Q| |].
  - cbn [Z.eqb] in *. destruct (verify_hash (e_mem (a_env a) 4%nat) (Some (firstn 512 (a_pass a))) x (off NONULL (a_ctrl a))) as [raw| |]; cbn [bind] in *; try discriminate. exists raw. split; [apply FR; reflexivity|]. eapply FIN; [exact H|reflexivity].
  - change (8 =? RUN_HELPER) with true in *. cbn [Z.eqb] in *. destruct (run_helper (e_how (a_env a) 3%nat) (a_db a) (Some (firstn 512 (a_pass a))) (a_ctrl a) (a_name a)) as [raw| |]; cbn [bind] in *; try discriminate. exists raw. split; [apply FR; reflexivity|]. eapply FIN; [exact H|reflexivity].
  - change (10 =? RUN_HELPER) with false in *. cbn [Z.eqb] in *. exists 10. destruct (on AUDIT (a_ctrl a) || on DEBUG (a_ctrl a)); (split; [apply FR; reflexivity|]; eapply FIN; [exact H|reflexivity]).
Qed.

Lemma series_counts : forall l f f', Forall (fun x => enough_memory (fst x)) l -> series f l f' -> forall name, count f' name = failed_in_a_row name l (count f name).
Proof.
  induction l as [|[a rv] l IH]; intros f f' EM H name; inversion H as [|f0 a0 rv0 f1 l0 f2 T R]; subst; [reflexivity|]. inversion EM as [|x y E1 E2]; subst. cbn [fst] in E1. cbn [failed_in_a_row].
  rewrite (IH _ _ E2 R). destruct (tried_step _ _ _ _ E1 T) as (raw & _ & RV & CN). rewrite (CN name). f_equal. destruct (streq (a_name a) name); [|reflexivity].
  replace (rv =? 0) with (raw =? 0); [reflexivity|]. rewrite RV. destruct (raw =? 0) eqn:ER; [reflexivity|]. destruct (2 <=? _); [reflexivity|]. symmetry. exact ER.
Qed.
(** C36.  In one handle, the third and every later failure in a row for a user is PAM_MAXTRIES, whatever happened to other
    users in between; a success starts the count again; before, and after a success, the result is that of a fresh
    handle. *)
Theorem third_failure : forall l f a rv f', Forall (fun x => enough_memory (fst x)) l -> enough_memory a ->
  series (fun _ => None) l f -> tried a f = Ok (rv, f') -> exists raw, fresh a raw /\
    (raw = 0 -> rv = 0) /\ (raw <> 0 -> 2 <= failed_in_a_row (a_name a) l 0 -> rv = 11) /\ (raw <> 0 -> failed_in_a_row (a_name a) l 0 < 2 -> rv = raw).
Proof.
  intros l f a rv f' EL EA S T. destruct (tried_step _ _ _ _ EA T) as (raw & FR & RV & _). exists raw. split; [exact FR|]. rewrite (series_counts _ _ _ EL S) in RV. change (count (fun _ => None) (a_name a)) with 0 in RV.
  destruct (Z.eqb_spec raw 0) as [->|N]; (split; [intros ?; try contradiction; auto|]); (split; intros; try contradiction); rewrite RV; destruct (Z.leb_spec 2 (failed_in_a_row (a_name a) l 0)); auto; lia.
Qed.

(** ** The helper and the module agree *)
(** A shadowed user's password gets the same answer (success or not) from a process that reads the hash and from one that
    runs the helper as root or as that user. *)
Theorem helper_agrees : forall e e' d ctrl f name p k buf plan pw s h, is_cstr p ->
  e_try e = true -> e_priv e = true -> (forall i, e_mem e i = true) ->
  e_priv e' = false -> getsp d false name = None -> (forall i, e_mem e' i = true) -> e_how e' 3%nat = RRuns k buf plan -> length buf = CAP -> (length plan + 514 < fuel)%nat -> ~ In KFail plan -> ~ In KZero plan ->
  c_tty k = false -> c_mem k = true -> c_root k = true \/ c_audit k = true -> helper_priv k name = Some true ->
  getpw d name = Some pw -> shadow_mark pw = true -> getsp d true name = Some s -> sp_pwdp s = Some h -> ~ (name = lit "root" /\ h = lit "!*") ->
  (exists f1, verify_password e d ctrl f name p = Ok (0, f1)) <-> (exists f2, verify_password e' d ctrl f name p = Ok (0, f2)).
Proof.
  intros e e' d ctrl f name p k buf plan pw s h C T P M P' NS M' HW L FU K1 K2 TT MM AU HP GP SH GS SP NR.
  assert (EI : account_info true true d name = (0, Some pw, Some s)).
  { unfold account_info. rewrite GP, is_shadowed_mark, SH, GS, SP. destruct (streq name (lit "root")) eqn:E1; [|reflexivity]. destruct (streq h (lit "!*")) eqn:E2; [|reflexivity]. apply streq_eq in E1. apply streq_eq in E2. destruct (NR (conj E1 E2)). }
  assert (EI' : account_info (e_try e') false d name = (8, Some pw, None)).
  { unfold account_info. rewrite GP, is_shadowed_mark, SH, NS. destruct (e_try e'); reflexivity. }
  assert (ST : stored d true name h) by (exists pw; rewrite SH; eauto).
  assert (UQ : forall h', stored d true name h' -> h' = h).
  { intros h' (pw' & G' & S'). rewrite GP in G'. injection G' as <-. rewrite SH in S'. destruct S' as (s' & G' & Q). rewrite GS in G'. injection G' as <-. congruence. }
  unfold Unix_Model.verify_password. cbv zeta. rewrite T, P, P', !M, !M', EI, EI', HW. unfold hash_of. cbn [Z.eqb sp_pwdp]. rewrite SP. change (8 =? RUN_HELPER) with true. cbv iota beta. cbn [Z.eqb].
  split.
  - intros (f1 & H). destruct (verify_hash true (Some (firstn 512 p)) h (off NONULL ctrl)) as [v| |] eqn:EV; cbn [bind] in H; try discriminate. injection H as H. apply record_zero in H. subst v. destruct (accepted_is_right _ _ _ _ _ _ _ EV) as (w & Q & R). injection Q as <-.
    rewrite (helper_confirms_right _ _ _ fuel k buf plan d (firstn 512 p) ctrl name true h (is_cstr_firstn _ _ C) L FU K1 K2 TT MM AU HP ST) by (rewrite firstn_firstn; exact R). cbn [bind]. eexists. reflexivity.
  - intros (f2 & H). destruct (run_helper (RRuns k buf plan) d (Some (firstn 512 p)) ctrl name) as [v| |] eqn:EV; cbn [bind] in H; try discriminate. injection H as H. apply record_zero in H. subst v.
    assert (A : forall q : cstr, firstn 512 q = q -> is_cstr q -> run_helper (RRuns k buf plan) d (Some q) ctrl name = Ok 0 -> right (off NONULL ctrl) q h).
    { clear EV. intros q QQ CQ EV. cbn [Unix_Model.run_helper] in EV. unfold chkpwd in EV. cbv zeta in EV. rewrite TT, HP in EV. destruct (read_pass_sent fuel buf plan q CQ L FU) as (w & RP & _ & WW). rewrite (WW K1 K2), QQ in RP.
      destruct (helper_hash_conv _ _ _ _ ST) as (pw' & EH).
      assert (EV' : exists v, verify_hash (c_mem k) (Some q) h (off NONULL ctrl) = Ok v /\ (if v =? 0 then (if negb (c_root k) && negb (c_audit k) then 7 else 0) else if v =? 10 then 9 else 7) = 0).
      { destruct (off NONULL ctrl).
        - change (streq (lit "nullok") (lit "chkexpiry")) with false in EV. change (streq (lit "nullok") (lit "nullok")) with true in EV. cbv iota in EV. rewrite RP in EV. cbn [bind] in EV. unfold helper_verify in EV. rewrite MM, EH in EV. rewrite MM. destruct (verify_hash true (Some q) h true) as [v| |]; cbn [bind] in EV; try discriminate. exists v. split; [reflexivity|]. congruence.
        - change (streq (lit "nonull") (lit "chkexpiry")) with false in EV. change (streq (lit "nonull") (lit "nullok")) with false in EV. change (streq (lit "nonull") (lit "nonull")) with true in EV. cbv iota in EV. rewrite RP in EV. cbn [bind] in EV. unfold helper_verify in EV. rewrite MM, EH in EV. rewrite MM. destruct (verify_hash true (Some q) h false) as [v| |]; cbn [bind] in EV; try discriminate. exists v. split; [reflexivity|]. congruence. }
      destruct EV' as (v & VH & Z0). destruct (Z.eqb_spec v 0) as [->|N]; [|destruct (v =? 10); discriminate]. destruct (accepted_is_right _ _ _ _ _ _ _ VH) as (w' & Q & R). injection Q as <-. exact R. }
    assert (R : right (off NONULL ctrl) (firstn 512 p) h) by (apply A; [rewrite firstn_firstn; reflexivity|apply is_cstr_firstn; exact C|exact EV]).
    match goal with |- context [Unix_Model.verify_hash crypt md5_good md5_broken true ?x h ?y] => replace (Unix_Model.verify_hash crypt md5_good md5_broken true x h y) with (@Ok Z 0) by (symmetry; exact (right_is_accepted _ _ _ _ _ _ R)) end. cbn [bind]. eexists. reflexivity.
Qed.

(** ** pam_setcred *)
(** With likeauth pam_setcred repeats, once, what pam_authenticate said; without it, and without an authentication, it
    succeeds. *)
Theorem setcred_repeats : forall e d ctrl f guser gtok rv kept f', authenticate e d ctrl f guser gtok = Ok (rv, kept, f') -> e_mem e 7%nat = true ->
  (on LIKE_AUTH ctrl = true -> setcred ctrl kept = (rv, None)) /\ (on LIKE_AUTH ctrl = false -> fst (setcred ctrl kept) = 0) /\ fst (setcred ctrl None) = 0.
Proof.
  intros e d ctrl f guser gtok rv kept f' H M. assert (K : kept = Some rv).
  { unfold Unix_Model.authenticate in H. rewrite M in H. cbn [negb] in H. destruct guser as [urv name]. destruct (urv =? 0); cbn [negb] in H; [|destruct (urv =? 30); congruence].
    destruct (match name with c :: _ => Ascii.eqb c "-" || Ascii.eqb c "+" | [] => false end); [congruence|]. destruct (blankpasswd e d ctrl name) as [b| |]; cbn [bind] in H; try discriminate. destruct b; [congruence|].
    destruct gtok as [trv p]. destruct (trv =? 0); cbn [negb] in H; [|destruct (trv =? 30); congruence]. destruct (verify_password e d ctrl f name p) as [[x y]| |]; cbn [bind] in H; try discriminate. congruence. }
  subst kept. unfold setcred. split; [intros ->; reflexivity|]. split; [intros ->; reflexivity|reflexivity].
Qed.
End Auth.

(** ** Examples *)
Definition see : uenv := mkE true true 0 (fun _ => RNone) (fun _ => true).
Definition ask (own : string) : uenv := mkE false false 0 (fun _ => RRuns (for_ann own) dirt [KTake 3]) (fun _ => true).
Definition none : failures := fun _ => None.
Notation auth := (authenticate toy toy_md5 toy_old 600).
Example ask_sane : sane 600 (ask "ann") /\ sane 600 see /\ getpw (ann_db "absecret.....") nonexistent = None /\ is_cstr (lit "secret").
Proof.
  split; [|split; [|split; [reflexivity|vm_compute; intuition discriminate]]].
  - intros i k buf plan E. injection E as <- <- <-. split; [apply repeat_length|]. apply Nat.ltb_lt. vm_compute. reflexivity.
  - intros i k buf plan E. discriminate.
Qed.
Definition outcome (r : res (Z * option Z * failures)) : option (Z * option Z) := match r with Ok (v, k, _) => Some (v, k) | _ => None end.
Example ann_gets_in : outcome (auth (ask "ann") (ann_db "absecret.....") (flag_of NONULL) none (0, lit "ann") (0, lit "secret")) = Some (0, Some 0) /\
  outcome (auth see (ann_db "absecret.....") (flag_of NONULL) none (0, lit "ann") (0, lit "secret")) = Some (0, Some 0) /\
  outcome (auth see (ann_db "absecret.....") (flag_of NONULL) none (0, lit "ann") (0, lit "secreT")) = Some (7, Some 7) /\
  outcome (auth see (ann_db "") 0%N none (0, lit "ann") (19, [])) = Some (0, Some 0) /\
  outcome (auth see (ann_db "") (flag_of NONULL) none (0, lit "ann") (19, [])) = Some (19, Some 19) /\
  outcome (auth see (ann_db "!") 0%N none (0, lit "ann") (0, [])) = Some (7, Some 7) /\
  outcome (auth (ask "bob") (ann_db "absecret.....") 0%N none (0, lit "ann") (0, lit "secret")) = Some (9, Some 9).
Proof. do 6 (split; [vm_compute; reflexivity|]). vm_compute. reflexivity. Qed.
(** The first four failures of ann, with one of somebody unknown in between. *)
Definition wrong (n : string) : attempt := mkA see (ann_db "absecret.....") (flag_of NONULL) (lit n) (lit "wrong").
Example four_failures : exists f, series toy toy_md5 toy_old 600 none [(wrong "ann", 7); (wrong "eve", 10); (wrong "ann", 7); (wrong "ann", 11); (wrong "ann", 11)] f /\
  Forall (fun x => enough_memory (fst x)) [(wrong "ann", 7); (wrong "eve", 10)].
Proof.
  eexists. split.
  - eapply SMore; [vm_compute; reflexivity|]. eapply SMore; [vm_compute; reflexivity|]. eapply SMore; [vm_compute; reflexivity|]. eapply SMore; [vm_compute; reflexivity|]. eapply SMore; [vm_compute; reflexivity|]. apply SNone.
  - repeat constructor.
Qed.
Example agreeing : c_tty (for_ann "ann") = false /\ helper_priv (for_ann "ann") (lit "ann") = Some true /\ getsp (ann_db "absecret.....") false (lit "ann") = None /\ ~ (lit "ann" = lit "root" /\ lit "absecret....." = lit "!*") /\
  getsp (ann_db "absecret.....") true (lit "ann") = Some (shadowed "absecret.....").
Proof. repeat split. intros [Q _]. discriminate. Qed.
(** ** What does not hold *)
(** The assumption that nobody is called pam_unix_non_existent: cannot be left out. When a name service invents users, the
    second turn of the loop, made against guessing by timing, decides: here it finds a user without password, and the
    real user, whose password is set, is let in without any. *)
Definition wild_db : db := mkDb (fun n => Some (mkPw n (if streq n (lit "ann") then lit "absecret....." else []))) (fun _ _ => None).
Theorem invented_users_let_in_refuted : exists e d ctrl f name kept f', sane 600 e /\ auth e d ctrl f (0, name) (7, []) = Ok (0, kept, f') /\
  forall priv h, stored d priv name h -> ~ right toy toy_md5 toy_old true [] h.
Proof.
  exists see, wild_db, 0%N, none, (lit "ann"). do 2 eexists. split; [apply ask_sane|]. split; [vm_compute; reflexivity|]. intros priv h (pw & G & S) R. cbn in G. injection G as <-. cbn in S. subst h.
  apply right_is_accepted in R. vm_compute in R. discriminate.
Qed.
(** Whether a user is asked for a password at all differs between a process that can read the hash and one that runs the
    helper: when empty passwords are allowed and the hash field holds the hash of the empty password, the first asks, the second lets
    the user in at once. *)
Theorem blank_check_agrees_refuted : exists d name, outcome (auth see d 0%N none (0, name) (7, [])) = Some (7, Some 7) /\ outcome (auth (ask "ann") d 0%N none (0, name) (7, [])) = Some (0, Some 0).
Proof. exists (ann_db "ab..........."), (lit "ann"). split; vm_compute; reflexivity. Qed.

Print Assumptions let_in_only_with_password.
Print Assumptions third_failure.
Print Assumptions helper_agrees.
Print Assumptions setcred_repeats.
Print Assumptions invented_users_let_in_refuted.
Print Assumptions blank_check_agrees_refuted.
