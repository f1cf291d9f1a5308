(** C117: the program faillock. *)
From Coq Require Import String Ascii List Arith ZArith Lia Bool.
From Verif Require Import Base Str_Model Fltool_Model.
Import ListNotations.
Local Open Scope Z_scope.

(** * Specification *)

(** Well-formed arguments: a list of settings. *)
Inductive setting := SConf (v : cstr) | SDir (v : cstr) | SUser (v : cstr) | SReset | SLegacy.
Definition words (x : setting) : list cstr :=
  match x with SConf v => [lit "--conf"; v] | SDir v => [lit "--dir"; v] | SUser v => [lit "--user"; v] | SReset => [lit "--reset"] | SLegacy => [lit "--legacy-output"] end.
Definition sound (x : setting) : Prop := match x with SConf v | SDir v | SUser v => v <> [] | _ => True end.
(** The last of the settings of a kind. *)
Fixpoint latest (pick : setting -> option cstr) (xs : list setting) (d : option cstr) : option cstr :=
  match xs with [] => d | x :: t => latest pick t (match pick x with Some v => Some v | None => d end) end.
Definition conf_of x := match x with SConf v => Some v | _ => None end.
Definition dir_of x := match x with SDir v => Some v | _ => None end.
Definition user_of x := match x with SUser v => Some v | _ => None end.
Definition is_reset x := match x with SReset => true | _ => false end.
Definition is_legacy x := match x with SLegacy => true | _ => false end.
Definition meaning (xs : list setting) (c : cmd) : cmd :=
  mkCmd (latest conf_of xs (o_conf c)) (latest dir_of xs (o_dir c)) (latest user_of xs (o_user c)) (o_reset c || existsb is_reset xs) (o_legacy c || existsb is_legacy xs).
(** The files are the same but for empty ones that were not there. *)
Definition unchanged (before after : cstr -> option (list raw)) (u : cstr) : Prop := after u = before u \/ (before u = None /\ after u = Some []).
(** The source of a record is terminated within its bytes. *)
Definition terminated (r : raw) : Prop := In NUL (w_source r).
(** Events with which a state was extended. *)
Definition new (s s' : state) (ev : list event) : Prop := events s' = (events s ++ ev)%list.

(** * Facts *)

Lemma meaning_cons : forall x xs c, meaning (x :: xs) c = meaning xs (meaning [x] c).
Proof. intros [v|v|v| |] xs [cf d u r l]; unfold meaning; cbn; rewrite ?orb_false_r, ?orb_true_r; reflexivity. Qed.
Lemma meaning_nil : forall c, meaning [] c = c.
Proof. intros [cf d u r l]. unfold meaning. cbn. now rewrite !orb_false_r. Qed.
Lemma put_same : forall f u v, put f u v u = v. Proof. intros. unfold put. now rewrite streq_refl. Qed.
Lemma put_other : forall f u v x, x <> u -> put f u v x = f x. Proof. intros f u v x H. unfold put. apply streq_neq in H. now rewrite H. Qed.
Lemma whole_ok : forall l, whole l = Ok (upto l) <-> In NUL l.
Proof.
  intros l. unfold whole. destruct (existsb (Ascii.eqb NUL) l) eqn:X; split; intros H; try reflexivity; try discriminate.
  - apply existsb_exists in X. destruct X as (x & X1 & X2). apply Ascii.eqb_eq in X2. now subst x.
  - assert (Y : existsb (Ascii.eqb NUL) l = true) by (apply existsb_exists; exists NUL; split; [exact H | apply Ascii.eqb_refl]). congruence.
Qed.

(** * Theorems *)

(** C117: exactly lists of known settings with values are taken; the last of a kind counts. *)
Theorem tool_arguments : forall args c c', parse args c = Some c' <-> exists xs, args = flat_map words xs /\ Forall sound xs /\ c' = meaning xs c.
Proof.
  intros args c c'. split.
  - revert c. remember (length args) as n eqn:N. assert (LE : (length args <= n)%nat) by lia. clear N. revert args LE. induction n as [|n IH]; intros args LE c H.
    + destruct args; [|cbn in LE; lia]. cbn in H. injection H as <-. exists []. split; [reflexivity|]. split; [constructor | now rewrite meaning_nil].
    + destruct args as [|a t]; [cbn in H; injection H as <-; exists []; split; [reflexivity|]; split; [constructor | now rewrite meaning_nil]|]. cbn [parse length] in *.
      assert (Two : forall mk : cstr -> setting, (forall v, words (mk v) = [a; v]) -> (forall v, v <> [] -> sound (mk v)) ->
        forall v t', t = v :: t' -> v <> [] -> parse t' (meaning [mk v] c) = Some c' -> exists xs, a :: t = flat_map words xs /\ Forall sound xs /\ c' = meaning xs c).
      { intros mk Hw Hs v t' -> Hv P. destruct (IH t' ltac:(cbn in LE; lia) _ P) as (xs & -> & F & ->). exists (mk v :: xs). cbn [flat_map]. rewrite Hw. split; [reflexivity|]. split; [constructor; auto | now rewrite <- meaning_cons]. }
      assert (One1 : forall x, words x = [a] -> sound x -> parse t (meaning [x] c) = Some c' -> exists xs, a :: t = flat_map words xs /\ Forall sound xs /\ c' = meaning xs c).
      { intros x Hw Hs P. destruct (IH t ltac:(lia) _ P) as (xs & -> & F & ->). exists (x :: xs). cbn [flat_map]. rewrite Hw. split; [reflexivity|]. split; [constructor; auto | now rewrite <- meaning_cons]. }
      destruct c as [cf d u r l]. unfold meaning in Two, One1. cbn [o_conf o_dir o_user o_reset o_legacy existsb] in *.
      destruct (streq a (lit "--conf")) eqn:Q1; [apply streq_eq in Q1; subst a; destruct t as [|[|v0 v] t']; try discriminate; apply (Two SConf (fun _ => eq_refl) (fun _ h => h) (v0 :: v) t' eq_refl ltac:(discriminate)); cbn; rewrite ?orb_false_r; exact H|].
      destruct (streq a (lit "--dir")) eqn:Q2; [apply streq_eq in Q2; subst a; destruct t as [|[|v0 v] t']; try discriminate; apply (Two SDir (fun _ => eq_refl) (fun _ h => h) (v0 :: v) t' eq_refl ltac:(discriminate)); cbn; rewrite ?orb_false_r; exact H|].
      destruct (streq a (lit "--user")) eqn:Q3; [apply streq_eq in Q3; subst a; destruct t as [|[|v0 v] t']; try discriminate; apply (Two SUser (fun _ => eq_refl) (fun _ h => h) (v0 :: v) t' eq_refl ltac:(discriminate)); cbn; rewrite ?orb_false_r; exact H|].
      destruct (streq a (lit "--reset")) eqn:Q4; [apply streq_eq in Q4; subst a; apply (One1 SReset eq_refl Coq.Init.Logic.I); cbn; rewrite ?orb_false_r, ?orb_true_r; exact H|].
      destruct (streq a (lit "--legacy-output")) eqn:Q5; [apply streq_eq in Q5; subst a; apply (One1 SLegacy eq_refl Coq.Init.Logic.I); cbn; rewrite ?orb_false_r, ?orb_true_r; exact H | discriminate].
  - intros (xs & -> & F & ->). revert c. induction F as [|x xs Hx F IH]; intros c; [cbn; now rewrite meaning_nil|]. rewrite meaning_cons, <- IH. destruct c as [cf d u r l].
    destruct x as [[|v0 v]|[|v0 v]|[|v0 v]| |]; try (exfalso; now apply Hx); unfold meaning; cbn; rewrite ?orb_false_r, ?orb_true_r; reflexivity.
Qed.
(** C117: the directory: that of the arguments, otherwise that of the configuration, otherwise the usual one. *)
Theorem tool_directory : forall E c d, e_mem E = true -> e_conf E (o_conf c) = Some d -> tally_dir E c = Some match o_dir c, d with Some v, _ => v | None, Some v => v | None, None => lit "/var/run/faillock" end.
Proof. intros E c d M H. unfold tally_dir. rewrite H, M. destruct (o_dir c), d; reflexivity. Qed.
(** C117: a reset: other files stay; the exit status tells whether the file is empty; one audit record with the outcome, if there is an audit. *)
Theorem tool_reset : forall E c user s code s', o_reset c = true -> do_user E c user s = Ok (code, s') ->
  (forall x, x <> user -> files s' x = files s x) /\
  (code = 0 -> e_open E user = NoDirectory /\ s' = s \/ files s' user = Some []) /\
  (code <> 0 -> unchanged (files s) (files s') user) /\
  (e_user E user = true -> e_open E user = Opens -> (code = 0 <-> e_trunc E user = true) /\ exists pre, new s s' (pre ++ (if e_audit E then [Audit user (code =? 0)] else [])) /\ Forall (eq Complaint) pre) /\
  (forall ok, In (Audit user ok) (events s') -> In (Audit user ok) (events s) \/ ok = (code =? 0)).
Proof.
  intros E c user s code s' R. unfold do_user. rewrite R. destruct (e_user E user) eqn:U; cbn [negb].
  2: { intros H. injection H as <- <-. cbn [files events]. split; [auto|]. split; [discriminate|]. split; [intros; now left|]. split; [discriminate|]. intros ok H. apply in_app_or in H. destruct H as [H | [H | []]]; [auto | discriminate]. }
  destruct (e_open E user) eqn:O; intros H.
  - cbv zeta in H. destruct (e_trunc E user) eqn:T; injection H as <- <-; cbn [files events].
    + split; [intros; now apply put_other|]. split; [intros _; right; apply put_same|]. split; [intros X; exfalso; now apply X|]. split; [intros _ _; split; [tauto|]; exists []; split; [reflexivity | constructor]|].
      intros ok H. apply in_app_or in H. destruct H as [H | H]; [auto|]. right. destruct (e_audit E); cbn in H; [destruct H as [H | []]; now injection H | contradiction].
    + split; [intros; now apply put_other|]. split; [discriminate|]. split; [intros _; unfold unchanged; rewrite put_same; destruct (files s user); auto|].
      split; [intros _ _; split; [split; discriminate|]; exists [Complaint]; split; [reflexivity | repeat constructor]|].
      intros ok H. apply in_app_or in H. destruct H as [H | H]; [auto|]. right. destruct H as [H | H]; [discriminate|]. destruct (e_audit E); cbn in H; [destruct H as [H | []]; now injection H | contradiction].
  - injection H as <- <-. split; [auto|]. split; [auto|]. split; [intros; now left|]. split; [discriminate|]. auto.
  - injection H as <- <-. cbn [files events]. split; [auto|]. split; [discriminate|]. split; [intros; now left|]. split; [discriminate|]. intros ok H. apply in_app_or in H. destruct H as [H | [H | []]]; [auto | discriminate].
Qed.
Lemma show_keeps : forall E c user s code s', o_reset c = false -> do_user E c user s = Ok (code, s') -> forall x, unchanged (files s) (files s') x.
Proof.
  intros E c user s code s' R. unfold do_user. rewrite R. destruct (e_user E user); cbn [negb]; [|intros H; injection H as <- <-; now left].
  destruct (e_open E user); cbv zeta; [|intros H; injection H as <- <-; now left | intros H; injection H as <- <-; now left].
  assert (P : forall x, unchanged (files s) (put (files s) user (Some match files s user with Some l => l | None => [] end)) x).
  { intros x. unfold unchanged, put. destruct (streq x user) eqn:Q; [apply streq_eq in Q; subst x; destruct (files s user); auto | now left]. }
  destruct (e_read E user); cbn [negb]; [|intros H; injection H as <- <-; exact P].
  destruct (o_legacy c); [|intros H; injection H as <- <-; exact P]. destruct (show_old E (headed s) _ user); cbn [bind]; intros H; try discriminate. injection H as <- <-. exact P.
Qed.
(** C117: without a reset no records change, whatever the arguments are. *)
Theorem tool_show_keeps : forall E args xs s code s', args = flat_map words xs -> Forall sound xs -> ~ In SReset xs -> main E args s = Ok (code, s') -> forall x, unchanged (files s) (files s') x.
Proof.
  intros E args xs s code s' -> F N H x. unfold main in H. assert (P : parse (flat_map words xs) no_cmd = Some (meaning xs no_cmd)) by (apply tool_arguments; eauto). rewrite P in H.
  assert (R : o_reset (meaning xs no_cmd) = false).
  { cbn. destruct (existsb is_reset xs) eqn:X; [|reflexivity]. apply existsb_exists in X. destruct X as ([| | | |] & X1 & X2); try discriminate. contradiction. }
  cbv zeta in H. destruct (tally_dir E (meaning xs no_cmd)) as [dir|]; [|injection H as <- <-; now left].
  destruct (o_user (meaning xs no_cmd)) as [u|]; [now apply (show_keeps _ _ _ _ _ _ R H)|]. destruct (e_scan E dir) as [names|]; [|injection H as <- <-; now left].
  destruct (users E (meaning xs no_cmd) names s) as [s1| |] eqn:Us; cbn [bind] in H; try discriminate. injection H as <- <-. revert s Us. induction names as [|n t IH]; intros s Us; cbn [users] in Us; [injection Us as <-; now left|].
  destruct (is_dot n); [now apply IH|]. destruct (do_user E (meaning xs no_cmd) n s) as [[c0 s2]| |] eqn:D; cbn [bind] in Us; try discriminate.
  pose proof (show_keeps _ _ _ _ _ _ R D x) as K1. specialize (IH s2 Us). unfold unchanged in *. destruct K1 as [K1 | (K1 & K2)], IH as [I1 | (I1 & I2)]; rewrite ?K1, ?K2 in *; auto; try discriminate.
Qed.
(** C117: the new format shows the records of the file in order, up to a limit, each with kind, source and validity; what cannot be shown is complained about. *)
Theorem tool_shown : forall E c user s l, o_reset c = false -> o_legacy c = false -> e_user E user = true -> e_open E user = Opens -> e_read E user = true -> files s user = Some l ->
  exists s' ev, do_user E c user s = Ok (0, s') /\ new s s' (Heading user :: ev) /\ length ev = Nat.min 1024 (length l) /\
  forall i r, (i < 1024)%nat -> nth_error l i = Some r -> nth_error ev i = Some match e_time E (w_time r) with
    | None => Complaint
    | Some t => Line t (if Z.testbit (w_status r) 1 then "RHOST" else if Z.testbit (w_status r) 2 then "TTY" else "SVC") (upto (w_source r)) (Z.testbit (w_status r) 0)
    end.
Proof.
  intros E c user s l R L U O Rd Hl. unfold do_user. rewrite U, O, R, Rd, L, Hl. cbn [negb]. cbv zeta. unfold show. do 2 eexists. split; [reflexivity|]. split; [reflexivity|]. split; [now rewrite map_length, firstn_length|].
  assert (B : forall v k, 0 <= k -> on v (2 ^ k) = Z.testbit v k).
  { intros v k Hk. unfold on. destruct (Z.testbit v k) eqn:T.
    - destruct (Z.eqb_spec (Z.land v (2 ^ k)) 0) as [Z0|]; [|reflexivity]. assert (X : Z.testbit (Z.land v (2 ^ k)) k = true) by (rewrite Z.land_spec, T, Z.pow2_bits_true by exact Hk; reflexivity). rewrite Z0, Z.bits_0 in X. discriminate.
    - replace (Z.land v (2 ^ k)) with 0; [reflexivity|]. symmetry. apply Z.bits_inj'. intros n Hn. rewrite Z.land_spec, Z.bits_0. destruct (Z.eq_dec n k) as [->|D]; [now rewrite T|]. rewrite Z.pow2_bits_false by congruence. apply andb_false_r. }
  intros i r Hi Hr. assert (Q : nth_error (firstn MAX_RECORDS l) i = Some r).
  { rewrite <- Hr. unfold MAX_RECORDS. clear - Hi. revert i Hi l. generalize 1024%nat as n. induction n as [|n IH]; intros i Hi l; [lia|]. destruct l as [|a l]; [destruct i; reflexivity|]. destruct i; [reflexivity|]. cbn. apply IH. lia. }
  rewrite (map_nth_error _ _ _ Q). f_equal. destruct (e_time E (w_time r)); [|reflexivity]. f_equal; [rewrite <- (B _ 1), <- (B _ 2) by lia; reflexivity | now rewrite <- (B _ 0) by lia].
Qed.
(** C117: nothing undefined happens if sources are terminated; in the new format in any case. *)
Theorem tool_defined : forall E c user s, o_legacy c = false \/ o_reset c = true \/ (forall l, files s user = Some l -> Forall terminated l) -> exists code s', do_user E c user s = Ok (code, s') /\ In code [0; 1; 3; 4; 5].
Proof.
  intros E c user s H. unfold do_user. destruct (e_user E user); cbn [negb]; [|do 2 eexists; split; [reflexivity | cbn; auto]].
  destruct (e_open E user); cbv zeta; [|do 2 eexists; split; [reflexivity | cbn; auto] | do 2 eexists; split; [reflexivity | cbn; auto]].
  destruct (o_reset c) eqn:R; [do 2 eexists; split; [reflexivity|]; destruct (e_trunc E user); cbn; auto|].
  destruct (e_read E user); cbn [negb]; [|do 2 eexists; split; [reflexivity | cbn; tauto]]. destruct (o_legacy c) eqn:L; [|do 2 eexists; split; [reflexivity | cbn; auto]].
  assert (X : exists ev, show_old E (headed s) (firstn MAX_RECORDS match files s user with Some l => l | None => [] end) user = Ok ev).
  { unfold show_old. destruct (rev (firstn MAX_RECORDS match files s user with Some l => l | None => [] end)) as [|r t] eqn:Rv; [eauto|]. destruct (e_time E (w_time r)); [|eauto].
    assert (T : terminated r).
    { destruct H as [H | [H | H]]; try discriminate. destruct (files s user) as [l|]; [|cbn in Rv; discriminate]. specialize (H l eq_refl). rewrite Forall_forall in H. apply H.
      assert (I : In r (rev (firstn MAX_RECORDS l))) by (rewrite Rv; now left). apply in_rev in I. rewrite <- (firstn_skipn MAX_RECORDS l). apply in_or_app. now left. }
    apply whole_ok in T. rewrite T. cbn [bind]. eauto. }
  destruct X as (ev & ->). cbn [bind]. do 2 eexists. split; [reflexivity | cbn; auto].
Qed.
(** C117: the legacy format shows one line for a user: how many records there are, and time and source of the last; the heading is shown once. *)
Theorem tool_old : forall E c user s l r t, o_reset c = false -> o_legacy c = true -> e_user E user = true -> e_open E user = Opens -> e_read E user = true ->
  files s user = Some (l ++ [r])%list -> (length l < 1024)%nat -> e_time E (w_time r) = Some t -> terminated r ->
  exists s', do_user E c user s = Ok (0, s') /\ new s s' ((if headed s then [] else [OldHeading]) ++ [Old (firstn 15 user) (S (length l)) (Some (t, upto (w_source r)))]) /\ headed s' = true.
Proof.
  intros E c user s l r t R L U O Rd Hl Len T N. apply whole_ok in N. unfold do_user. rewrite U, O, R, Rd, L, Hl. cbn [negb]. cbv zeta.
  rewrite firstn_all2 by (rewrite app_length; unfold MAX_RECORDS; cbn [length]; lia). unfold show_old. rewrite rev_app_distr. cbn [rev app]. rewrite T, N. cbn [bind]. eexists. split; [reflexivity|]. split; [|reflexivity].
  unfold new. cbn [events]. rewrite app_length. cbn [length]. now rewrite Nat.add_1_r.
Qed.
(** C117: a reset of all users: every listed file of an existing user is empty afterwards, others stay. *)
Theorem tool_reset_all : forall E c names s, o_reset c = true -> (forall u, e_open E u = Opens /\ e_trunc E u = true) -> exists s', users E c names s = Ok s' /\
  forall u, files s' u = if existsb (streq u) names && e_user E u && negb (streq u (lit ".") || streq u (lit "..")) then Some [] else files s u.
Proof.
  intros E c names s R H. revert s. induction names as [|n t IH]; intros s; cbn [users]; [exists s; split; reflexivity|]. unfold is_dot. destruct (streq n (lit ".") || streq n (lit "..")) eqn:D.
  - destruct (IH s) as (s' & -> & F). exists s'. split; [reflexivity|]. intros u. rewrite F. cbn [existsb]. destruct (streq u n) eqn:Q; [|reflexivity]. apply streq_eq in Q. subst u. rewrite D. cbn [negb]. now rewrite !andb_false_r.
  - unfold do_user at 1. destruct (H n) as (-> & ->). rewrite R. cbv zeta. destruct (e_user E n) eqn:U; cbn [negb bind].
    + match goal with |- context [users E c t ?s1] => destruct (IH s1) as (s' & -> & F) end. exists s'. split; [reflexivity|]. intros u. rewrite F. cbn [files existsb]. unfold put.
      destruct (streq u n) eqn:Q; [|reflexivity]. apply streq_eq in Q. subst u. rewrite D, U. cbn [orb andb negb]. destruct (existsb (streq n) t); reflexivity.
    + match goal with |- context [users E c t ?s1] => destruct (IH s1) as (s' & -> & F) end. exists s'. split; [reflexivity|]. intros u. rewrite F. cbn [files existsb].
      destruct (streq u n) eqn:Q; [|reflexivity]. apply streq_eq in Q. subst u. rewrite U. now rewrite !andb_false_r.
Qed.

(** A system. *)
Definition system (trunc : bool) : env := mkEnv (fun _ => Some None) true (fun u => streq u (lit "ann") || streq u (lit "bob")) (fun _ => Opens) (fun _ => trunc) true (fun _ => true) (fun _ => Some (lit "now")) (fun _ => Some [lit "."; lit ".."; lit "ann"; lit "eve"]).
Definition short : raw := mkRaw (lit "host" ++ repeat NUL 48) 3 100.
Definition long : raw := mkRaw (repeat "h"%char 52) 3 100.
Definition store (l : list raw) : state := mkSt (fun u => if streq u (lit "ann") then Some l else if streq u (lit "eve") then Some l else None) false [].
(** C117: refuted: the legacy format shows any file: a source of 52 bytes has no end. *)
Theorem tool_legacy_refuted : exists E args s, main E args s = UB /\ forall l u, files s u = Some l -> Forall (fun r => length (w_source r) = 52%nat) l.
Proof.
  exists (system true), [lit "--legacy-output"; lit "--user"; lit "ann"], (store [long]). split; [vm_compute; reflexivity|]. intros l u. unfold store. cbn [files].
  destruct (streq u (lit "ann")); [intros H; injection H as <-; repeat constructor|]. destruct (streq u (lit "eve")); [intros H; injection H as <-; repeat constructor | discriminate].
Qed.
(** C117: the source shown is what comes before the first NUL, and all 52 bytes if there is none. *)
Theorem tool_source : forall l, ~ In NUL (upto l) /\ ((~ In NUL l /\ upto l = l) \/ (exists rest, l = upto l ++ NUL :: rest)).
Proof.
  induction l as [|c l [N H]]; cbn [upto].
  - split; [intros [] | left; split; [intros [] | reflexivity]].
  - destruct (Ascii.eqb_spec c NUL) as [->|D].
    + split; [intros [] | right; exists l; reflexivity].
    + split; [intros [K|K]; [exact (D K) | exact (N K)] |].
      destruct H as [[K E] | [rest E]].
      * left. split; [intros [X|X]; [exact (D X) | exact (K X)] | rewrite E; reflexivity].
      * right. exists rest. cbn [app]. rewrite <- E. reflexivity.
Qed.
Example tool_source_example : upto (lit "host" ++ NUL :: lit "rest") = lit "host" /\ upto (repeat "h"%char 52) = repeat "h"%char 52.
Proof. split; reflexivity. Qed.
(** C117: refuted: the exit status tells whether all files were emptied. *)
Theorem tool_all_refuted : exists E s s', main E [lit "--reset"] s = Ok (0, s') /\ files s' (lit "ann") = Some [short].
Proof. exists (system false), (store [short]). eexists. split; reflexivity. Qed.
(** C117: refuted: showing a user leaves the files alone: the file is made if it is not there. *)
Theorem tool_creates_refuted : exists E s s', main E [lit "--user"; lit "bob"] s = Ok (0, s') /\ files s (lit "bob") = None /\ files s' (lit "bob") = Some [].
Proof. exists (system true), (store []). eexists. split; [reflexivity|]. split; reflexivity. Qed.

(** * Examples *)
Example tool_arguments_example : parse [lit "--user"; lit "ann"; lit "--reset"; lit "--user"; lit "bob"] no_cmd = Some (mkCmd None None (Some (lit "bob")) true false) /\ parse [lit "--user"] no_cmd = None.
Proof. split; [|reflexivity]. apply tool_arguments. exists [SUser (lit "ann"); SReset; SUser (lit "bob")]. split; [reflexivity|]. split; [repeat constructor; discriminate | reflexivity]. Qed.
Example tool_directory_example : tally_dir (system true) (mkCmd None (Some (lit "/t")) None false false) = Some (lit "/t") /\ tally_dir (system true) no_cmd = Some (lit "/var/run/faillock").
Proof. split; apply tool_directory with (d := None); reflexivity. Qed.
Example tool_reset_example : exists s', main (system true) [lit "--user"; lit "ann"; lit "--reset"] (store [short]) = Ok (0, s') /\ files s' (lit "ann") = Some [] /\ events s' = [Audit (lit "ann") true].
Proof. eexists. split; [reflexivity|]. split; reflexivity. Qed.
Example tool_show_keeps_example : exists s', main (system true) [lit "--user"; lit "ann"] (store [short; long]) = Ok (0, s') /\ files s' (lit "ann") = Some [short; long] /\
  events s' = [Heading (lit "ann"); Line (lit "now") "RHOST" (lit "host") true; Line (lit "now") "RHOST" (repeat "h"%char 52) true].
Proof. eexists. split; [reflexivity|]. split; reflexivity. Qed.
Example tool_shown_example : exists s', do_user (system true) no_cmd (lit "ann") (store [short]) = Ok (0, s') /\ events s' = [Heading (lit "ann"); Line (lit "now") "RHOST" (lit "host") true].
Proof. eexists. split; reflexivity. Qed.
Example tool_defined_example : exists s', main (system true) [lit "--legacy-output"] (store [short]) = Ok (0, s') /\ events s' = [OldHeading; Old (lit "ann") 1 (Some (lit "now", lit "host")); Complaint].
Proof. eexists. split; reflexivity. Qed.
Example tool_reset_all_example : exists s', main (system true) [lit "--reset"] (store [short]) = Ok (0, s') /\ files s' (lit "ann") = Some [] /\ files s' (lit "eve") = Some [short].
Proof. eexists. split; [reflexivity|]. split; reflexivity. Qed.

Example tool_old_example : exists s', do_user (system true) (mkCmd None None None false true) (lit "ann") (store [long; short]) = Ok (0, s') /\ events s' = [OldHeading; Old (lit "ann") 2 (Some (lit "now", lit "host"))].
Proof. eexists. split; reflexivity. Qed.

Print Assumptions tool_old. Print Assumptions tool_source. Print Assumptions tool_arguments. Print Assumptions tool_directory. Print Assumptions tool_reset. Print Assumptions tool_show_keeps. Print Assumptions tool_shown. Print Assumptions tool_defined. Print Assumptions tool_reset_all.
Print Assumptions tool_legacy_refuted. Print Assumptions tool_all_refuted. Print Assumptions tool_creates_refuted.
