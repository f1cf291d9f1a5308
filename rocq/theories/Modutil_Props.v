(** Theorems on the helper functions for modules (C29, C31, C43, C44, C45). *)
From Coq Require Import String Ascii List Arith ZArith Lia Bool.
From Verif Require Import Base Modutil_Model.
Import ListNotations.
Local Open Scope Z_scope.

(** ** Local user lookup *)
(** Some line of the file starts with the name and a colon. *)
Definition has_entry (name : cstr) (f : list ascii) : Prop :=
  exists pre post, f = (pre ++ name ++ c_colon :: post)%list /\ (pre = [] \/ exists q, pre = (q ++ [c_nl])%list) /\ ~ In c_nl name.

(** What is read at the end of a line: [rest] is empty or starts with the newline. *)
Definition line_end (rest : list ascii) : option ascii * list ascii := fgetc rest.
Definition ends (rest : list ascii) : Prop := rest = [] \/ exists r, rest = c_nl :: r.

Lemma at_end_rest : forall rest, ends rest -> at_end (fst (line_end rest)) = true.
Proof. intros rest [->|[r ->]]; reflexivity. Qed.
Lemma to_end : forall l rest, ~ In c_nl l -> ends rest -> to_line_end (l ++ rest) = line_end rest.
Proof.
  induction l as [|c l IH]; intros rest N E.
  - destruct E as [->|[r ->]]; reflexivity.
  - cbn [to_line_end app]. destruct (Ascii.eqb_spec c c_nl) as [->|_]; [exfalso; apply N; left; reflexivity|]. apply IH; [intro; apply N; right; assumption|exact E].
Qed.
Lemma match_name_spec : forall p c l rest, ~ In c_nl l -> ends rest ->
  (exists l', l = (p ++ l')%list /\ match_name p c (l ++ rest) = ([], match rev p with x :: _ => Some x | [] => c end, (l' ++ rest)%list)) \/
  (is_prefix p l = false /\ exists p' c' f', match_name p c (l ++ rest) = (p', c', f') /\ p' <> [] /\
     ((c', f') = line_end rest \/ exists ch l', c' = Some ch /\ ch <> c_nl /\ f' = (l' ++ rest)%list /\ ~ In c_nl l')).
Proof.
  induction p as [|x p IH]; intros c l rest N E; [left; exists l; split; reflexivity|].
  destruct l as [|ch l].
  - right. split; [reflexivity|]. destruct E as [->|[r ->]]; cbn; eexists _, _, _; (split; [reflexivity|]); split; try discriminate; left; reflexivity.
  - assert (Nc : ch <> c_nl) by (intros ->; apply N; left; reflexivity). assert (Nl : ~ In c_nl l) by (intro; apply N; right; assumption).
    cbn [match_name app fgetc]. rewrite (proj2 (Ascii.eqb_neq ch c_nl) Nc). cbn [orb]. destruct (Ascii.eqb_spec ch x) as [->|NX]; cbn [negb].
    + destruct (IH (Some x) l rest Nl E) as [(l' & -> & H)|(NP & p' & c' & f' & H & K)].
      * left. exists l'. split; [reflexivity|]. rewrite H. cbn [rev]. destruct (rev p); reflexivity.
      * right. split; [cbn; rewrite Ascii.eqb_refl; exact NP|]. exists p', c', f'. split; assumption.
    + right. split; [cbn; destruct (Ascii.eqb_spec x ch); [congruence|reflexivity]|]. eexists _, _, _. split; [reflexivity|]. split; [discriminate|].
      right. exists ch, l. repeat split; auto.
Qed.

(** One line of the file. *)
Lemma scan_step : forall fuel name c rc l rest, name <> [] -> ~ In c_nl l -> ends rest ->
  scan_lines (S fuel) name c rc (l ++ rest) =
    let rc := if is_prefix (name ++ [c_colon]) l then PAM_SUCCESS else rc in
    match line_end rest with (None, _) => Ok rc | (Some ch, f) => scan_lines fuel name (Some ch) rc f end.
Proof.
  intros fuel name c rc l rest NE N E. cbn [scan_lines].
  assert (Fin : forall rc0 : Z, (let '(c, f) := line_end rest in match c with None => Ok rc0 | Some _ => scan_lines fuel name c rc0 f end) =
    match line_end rest with (None, _) => Ok rc0 | (Some ch, f) => scan_lines fuel name (Some ch) rc0 f end) by (intro; destruct (line_end rest) as [[]]; reflexivity).
  pose proof (at_end_rest rest E) as AE.
  destruct (match_name_spec name c l rest N E) as [(l' & -> & H)|(NP & p' & c' & f' & H & NP' & K)]; rewrite H.
  - assert (L : exists x r, rev name = x :: r) by (destruct (rev name) eqn:R; [apply (f_equal (@rev ascii)) in R; rewrite rev_involutive in R; contradiction|eauto]).
    destruct L as (x & r & R). rewrite R.
    assert (NX : x <> c_nl) by (intros ->; apply N; apply in_or_app; left; apply in_rev; rewrite R; left; reflexivity).
    assert (Nl : ~ In c_nl l') by (intro; apply N; apply in_or_app; right; assumption).
    cbn [at_end]. rewrite (proj2 (Ascii.eqb_neq x c_nl) NX).
    assert (IP : is_prefix (name ++ [c_colon]) (name ++ l') = match l' with y :: _ => Ascii.eqb c_colon y | [] => false end).
    { clear. induction name as [|a n IH]; cbn; [destruct l' as [|y l']; [reflexivity|rewrite andb_true_r; reflexivity]|rewrite Ascii.eqb_refl; exact IH]. }
    rewrite IP. destruct l' as [|y l'].
    + cbn [app]. rewrite <- Fin. unfold line_end in *. destruct (fgetc rest) as [c1 f1] eqn:EF. cbn [fst] in AE. rewrite AE.
      destruct c1 as [ch|]; [|reflexivity]. cbn in AE. apply Ascii.eqb_eq in AE. subst ch. reflexivity.
    + cbn [app fgetc]. assert (NY : y <> c_nl) by (intros ->; apply Nl; left; reflexivity). cbn [at_end]. rewrite (proj2 (Ascii.eqb_neq y c_nl) NY).
      rewrite to_end; [|intro; apply Nl; right; assumption|exact E]. rewrite Ascii.eqb_sym. cbv zeta. rewrite <- Fin. reflexivity.
  - assert (IP : is_prefix (name ++ [c_colon]) l = false).
    { destruct (is_prefix (name ++ [c_colon]) l) eqn:X; [|reflexivity]. apply is_prefix_spec in X. destruct X as [r ->]. exfalso.
      rewrite <- app_assoc in NP. rewrite (proj2 (is_prefix_spec name _) (ex_intro _ _ eq_refl)) in NP. discriminate. }
    rewrite IP. cbv zeta. destruct p' as [|a p']; [contradiction|]. rewrite <- Fin. destruct K as [K|(ch & l' & -> & NC & -> & Nl)].
    + rewrite <- K in AE. cbn [fst] in AE. rewrite AE, AE, <- K. reflexivity.
    + cbn [at_end]. rewrite (proj2 (Ascii.eqb_neq ch c_nl) NC). destruct l' as [|y l'].
      * cbn [app]. unfold line_end in *. destruct (fgetc rest) as [c1 f1]. cbn [fst] in AE. rewrite AE. reflexivity.
      * cbn [app fgetc at_end]. assert (NY : y <> c_nl) by (intros ->; apply Nl; left; reflexivity). rewrite (proj2 (Ascii.eqb_neq y c_nl) NY).
        rewrite to_end; [reflexivity|intro; apply Nl; right; assumption|exact E].
Qed.

Lemma first_line : forall f : list ascii, ~ In c_nl f \/ exists l r, f = (l ++ c_nl :: r)%list /\ ~ In c_nl l.
Proof.
  induction f as [|c f IH]; [left; tauto|]. destruct (Ascii.eqb_spec c c_nl) as [->|N].
  - right. exists [], f. split; [reflexivity|tauto].
  - destruct IH as [H|(l & r & -> & H)].
    + left. intros [K|K]; [congruence|contradiction].
    + right. exists (c :: l), r. split; [reflexivity|]. intros [K|K]; [congruence|contradiction].
Qed.
Lemma cut_app : forall (a b c d : list ascii) x, (a ++ b = c ++ x :: d)%list -> ~ In x a -> exists e, c = (a ++ e)%list /\ b = (e ++ x :: d)%list.
Proof.
  induction a as [|y a IH]; intros b c d x H N; [exists c; split; [reflexivity|exact H]|].
  destruct c as [|z c]; cbn in H; injection H as -> H; [exfalso; apply N; left; reflexivity|].
  destruct (IH _ _ _ _ H) as (e & -> & ->); [intro; apply N; right; assumption|]. exists e. split; reflexivity.
Qed.
Lemma entry_last : forall name l, ~ In c_nl l -> (has_entry name l <-> is_prefix (name ++ [c_colon]) l = true).
Proof.
  intros name l N. rewrite is_prefix_spec. split.
  - intros (pre & post & E & [->|[q ->]] & _); [exists post; rewrite <- app_assoc; exact E|].
    exfalso. apply N. rewrite E. apply in_or_app. left. apply in_or_app. right. left. reflexivity.
  - intros [r E]. exists [], r. rewrite <- app_assoc in E. split; [exact E|]. split; [left; reflexivity|]. intro I. apply N. rewrite E. apply in_or_app. left. exact I.
Qed.
Lemma entry_line : forall name l r, ~ In c_nl l -> (has_entry name (l ++ c_nl :: r) <-> is_prefix (name ++ [c_colon]) l = true \/ has_entry name r).
Proof.
  intros name l r N. split.
  - intros (pre & post & E & P & NN). destruct P as [->|[q ->]].
    + left. cbn [app] in E. apply is_prefix_spec. replace (name ++ c_colon :: post)%list with ((name ++ [c_colon]) ++ post)%list in E by (rewrite <- app_assoc; reflexivity).
      symmetry in E. destruct (cut_app _ _ _ _ _ E) as (e & -> & _); [|eauto]. rewrite in_app_iff. intros [K|[K|K]]; [contradiction|discriminate|exact K].
    + right. rewrite <- app_assoc in E. cbn [app] in E. destruct (cut_app _ _ _ _ _ E N) as (e & -> & E2).
      destruct e as [|z e]; cbn in E2; injection E2 as E2.
      * exists [], post. split; [exact E2|]. split; [left; reflexivity|exact NN].
      * subst z. exists (e ++ [c_nl])%list, post. split; [rewrite H, <- app_assoc; reflexivity|]. split; [right; eauto|exact NN].
  - intros [P|(pre & post & -> & P & NN)].
    + apply is_prefix_spec in P. destruct P as [t ->]. exists [], (t ++ c_nl :: r)%list. split; [rewrite <- !app_assoc; reflexivity|]. split; [left; reflexivity|].
      intro I. apply N. rewrite !in_app_iff. tauto.
    + exists (l ++ c_nl :: pre)%list, post. split; [rewrite <- app_assoc; reflexivity|]. split; [|exact NN]. right.
      destruct P as [->|[q ->]]; [exists l; reflexivity|exists (l ++ c_nl :: q)%list; rewrite <- app_assoc; reflexivity].
Qed.
Lemma scan_spec : forall fuel name c rc f, name <> [] -> (length f < fuel)%nat ->
  exists r, scan_lines fuel name c rc f = Ok r /\ ((has_entry name f /\ r = PAM_SUCCESS) \/ (~ has_entry name f /\ r = rc)).
Proof.
  induction fuel as [|fuel IH]; intros name c rc f NE L; [lia|].
  destruct (first_line f) as [N|(l & r & -> & N)].
  - rewrite <- (app_nil_r f), scan_step, app_nil_r; [|exact NE|exact N|left; reflexivity]. cbn. eexists. split; [reflexivity|].
    rewrite (entry_last _ _ N). destruct (is_prefix (name ++ [c_colon]) f); [left; split; reflexivity|right; split; [discriminate|reflexivity]].
  - rewrite scan_step; [|exact NE|exact N|right; eexists; reflexivity]. cbn [line_end fgetc]. cbv zeta.
    destruct (IH name (Some c_nl) (if is_prefix (name ++ [c_colon]) l then PAM_SUCCESS else rc) r NE) as (x & E & K); [rewrite app_length in L; cbn in L; lia|].
    exists x. split; [exact E|]. rewrite (entry_line _ _ _ N). destruct (is_prefix (name ++ [c_colon]) l) eqn:P; destruct K as [[K ->]|[K ->]]; auto.
    right. split; [|reflexivity]. intros [H|H]; [discriminate|contradiction].
Qed.

(** C29: for a name that can be a user name, success is reported exactly when some line of the file starts with the
    name and a colon. *)
Theorem local_user_iff_entry : forall fuel name f, name <> [] -> ~ In c_colon name -> (length f < fuel)%nat ->
  exists r, check_user fuel name (Some f) = Ok r /\ ((has_entry name f /\ r = PAM_SUCCESS) \/ (~ has_entry name f /\ r = PAM_PERM_DENIED)).
Proof.
  intros fuel name f NE NC L. unfold check_user. destruct name as [|a n]; [contradiction|].
  assert (X : existsb (Ascii.eqb c_colon) (a :: n) = false).
  { destruct (existsb (Ascii.eqb c_colon) (a :: n)) eqn:E; [|reflexivity]. apply existsb_exists in E. destruct E as (x & I & E). apply Ascii.eqb_eq in E. subst x. contradiction. }
  rewrite X. apply scan_spec; assumption.
Qed.
(** C29, the rest: an empty name and an unreadable file are errors, a name with a colon is never a local user. *)
Theorem no_local_user : forall fuel name f,
  (name = [] -> check_user fuel name f = Ok PAM_SERVICE_ERR) /\
  (In c_colon name -> check_user fuel name f = Ok PAM_PERM_DENIED) /\
  (name <> [] -> ~ In c_colon name -> check_user fuel name None = Ok PAM_SERVICE_ERR).
Proof.
  intros fuel name f. split; [intros ->; reflexivity|]. split.
  - intro I. unfold check_user. destruct name as [|a n]; [contradiction|]. rewrite (proj2 (existsb_exists (Ascii.eqb c_colon) (a :: n))); [reflexivity|].
    exists c_colon. split; [exact I|reflexivity].
  - intros NE NC. unfold check_user. destruct name as [|a n]; [contradiction|]. destruct (existsb (Ascii.eqb c_colon) (a :: n)) eqn:E; [|reflexivity].
    apply existsb_exists in E. destruct E as (x & I & E). apply Ascii.eqb_eq in E. subst x. contradiction.
Qed.

Example check_user_example :
  let f := (lit "root:x:0:0" ++ [c_nl] ++ lit "bobby:x:1:1" ++ [c_nl; c_nl] ++ lit "bob:x")%list in
  check_user 99 (lit "bob") (Some f) = Ok PAM_SUCCESS /\ check_user 99 (lit "bobb") (Some f) = Ok PAM_PERM_DENIED /\
  check_user 99 (lit "x") (Some f) = Ok PAM_PERM_DENIED /\ check_user 99 (lit "root:x") (Some f) = Ok PAM_PERM_DENIED.
Proof. vm_compute. repeat split. Qed.

(** ** Looking up a key *)
(** The lines of a file, with their newlines. *)
Inductive lines_of : list ascii -> list (list ascii) -> Prop :=
| LO_nil : lines_of [] []
| LO_last : forall l, l <> [] -> ~ In c_nl l -> lines_of l [l]
| LO_line : forall l r ls, ~ In c_nl l -> lines_of r ls -> lines_of (l ++ c_nl :: r) ((l ++ [c_nl]) :: ls).

(** The characters after which a line says nothing more: newline, NUL, comment sign. *)
Definition stops (c : ascii) : Prop := c = c_nl \/ c = NUL \/ c = c_hash.
(** The line assigns value [v] to key [k]: white space, key, separators, value. *)
Definition assigns (l k v : list ascii) : Prop :=
  exists ws sep tl, l = (ws ++ k ++ sep ++ v ++ tl)%list /\
    (forall c, In c (ws ++ k ++ sep ++ v) -> ~ stops c) /\ (forall c t, tl = c :: t -> stops c) /\
    (forall c, In c ws -> isspace c = true) /\ (forall c t, (k ++ sep ++ v)%list = c :: t -> isspace c = false) /\ (k ++ sep ++ v)%list <> [] /\
    (forall c, In c k -> c <> c_space /\ c <> c_tab /\ c <> c_eq) /\
    (sep = [] -> v = []) /\ (forall c t, sep = c :: t -> c = c_space \/ c = c_tab \/ c = c_eq) /\
    (forall c, In c sep -> isspace c = true \/ c = c_eq) /\ (forall c t, v = c :: t -> isspace c = false /\ c <> c_eq).
(** Keys are compared without regard to case. *)
Definition same_key (a b : cstr) : Prop := map tolower a = map tolower b.

Lemma until_app : forall p a b, (forall c, In c a -> p c = false) -> (forall c t, b = c :: t -> p c = true) -> until p (a ++ b) = a.
Proof.
  intros p. induction a as [|x a IH]; intros b HA HB; cbn [until app].
  - destruct b as [|c t]; [reflexivity|]. cbn [until]. rewrite (HB c t eq_refl). reflexivity.
  - rewrite (HA x (or_introl eq_refl)). f_equal. apply IH; [|exact HB]. intros c I. apply HA. right. exact I.
Qed.
Lemma until_split : forall p l, exists r, l = (until p l ++ r)%list /\ (forall c, In c (until p l) -> p c = false) /\ (forall c t, r = c :: t -> p c = true).
Proof.
  intros p. induction l as [|x l (r & E & H1 & H2)]; [exists []; repeat split; [intros c []|discriminate]|]. cbn [until].
  destruct (p x) eqn:P; [exists (x :: l); repeat split; [intros c []|]; intros c t K; injection K as <- <-; exact P|].
  exists r. split; [cbn [app]; f_equal; exact E|]. split; [|exact H2]. intros c [<-|I]; [exact P|apply H1; exact I].
Qed.
Lemma skip_app : forall p a b, (forall c, In c a -> p c = true) -> (forall c t, b = c :: t -> p c = false) -> skip p (a ++ b) = b.
Proof.
  intros p. induction a as [|x a IH]; intros b HA HB; cbn [skip app].
  - destruct b as [|c t]; [reflexivity|]. cbn [skip]. rewrite (HB c t eq_refl). reflexivity.
  - rewrite (HA x (or_introl eq_refl)). apply IH; [|exact HB]. intros c I. apply HA. right. exact I.
Qed.
Lemma skip_split : forall p l, exists a, l = (a ++ skip p l)%list /\ (forall c, In c a -> p c = true) /\ (forall c t, skip p l = c :: t -> p c = false).
Proof.
  intros p. induction l as [|x l (a & E & H1 & H2)]; [exists []; repeat split; [intros c []|discriminate]|]. cbn [skip].
  destruct (p x) eqn:P; [|exists []; repeat split; [intros c []|]; intros c t K; injection K as <- <-; exact P].
  exists (x :: a). split; [cbn [app]; f_equal; exact E|]. split; [|exact H2]. intros c [<-|I]; [exact P|apply H1; exact I].
Qed.

Lemma chop : forall q l, ~ In c_nl q -> (l = q \/ l = q ++ [c_nl])%list ->
  (match rev l with c :: r => if Ascii.eqb c c_nl then rev r else l | [] => l end) = q.
Proof.
  intros q l N [->| ->].
  - destruct (rev q) as [|c r] eqn:R; [reflexivity|]. destruct (Ascii.eqb_spec c c_nl) as [->|_]; [|reflexivity].
    exfalso. apply N. apply in_rev. rewrite R. left. reflexivity.
  - rewrite rev_unit, Ascii.eqb_refl, rev_involutive. reflexivity.
Qed.
Lemma eqb_f : forall a b, Ascii.eqb a b = false <-> a <> b.
Proof. intros. apply Ascii.eqb_neq. Qed.

Lemma line_entry_iff : forall q l k v, ~ In c_nl q -> (l = q \/ l = q ++ [c_nl])%list -> (line_entry l = Some (k, v) <-> assigns l k v).
Proof.
  intros q l k v N L. unfold line_entry. rewrite (chop q l N L).
  set (q1 := until (Ascii.eqb NUL) q). set (q2 := until (Ascii.eqb c_hash) q1).
  destruct (until_split (Ascii.eqb NUL) q) as (r1 & E1 & A1 & B1). fold q1 in E1, A1.
  destruct (until_split (Ascii.eqb c_hash) q1) as (r2 & E2 & A2 & B2). fold q2 in E2, A2.
  assert (NS : forall c, In c q2 -> ~ stops c).
  { intros c I [->|[->| ->]].
    - apply N. rewrite E1, E2. apply in_or_app. left. apply in_or_app. left. exact I.
    - assert (I1 : In NUL q1) by (rewrite E2; apply in_or_app; left; exact I). apply A1 in I1. rewrite Ascii.eqb_refl in I1. discriminate.
    - apply A2 in I. rewrite Ascii.eqb_refl in I. discriminate. }
  assert (TL : exists tl, l = (q2 ++ tl)%list /\ forall c t, tl = c :: t -> stops c).
  { destruct r2 as [|c2 r2].
    - rewrite app_nil_r in E2. destruct r1 as [|c1 r1].
      + rewrite app_nil_r in E1. destruct L as [->| ->].
        * exists []. split; [rewrite app_nil_r; congruence|discriminate].
        * exists [c_nl]. split; [congruence|]. intros c t K. injection K as <- <-. left. reflexivity.
      + specialize (B1 _ _ eq_refl). apply Ascii.eqb_eq in B1. subst c1. destruct L as [->| ->].
        * exists (NUL :: r1). split; [congruence|]. intros c t K. injection K as <- <-. right. left. reflexivity.
        * exists (NUL :: r1 ++ [c_nl])%list. split; [rewrite E1, E2, <- app_assoc; reflexivity|]. intros c t K. injection K as <- <-. right. left. reflexivity.
    - specialize (B2 _ _ eq_refl). apply Ascii.eqb_eq in B2. subst c2. destruct L as [->| ->].
      + exists (c_hash :: r2 ++ r1)%list. split; [rewrite E1, E2, <- app_assoc; reflexivity|]. intros c t K. injection K as <- <-. right. right. reflexivity.
      + exists ((c_hash :: r2 ++ r1) ++ [c_nl])%list. split; [rewrite E1, E2, <- !app_assoc; cbn [app]; rewrite <- app_assoc; reflexivity|]. intros c t K. injection K as <- <-. right. right. reflexivity. }
  destruct TL as (tl & EL & TS).
  destruct (skip_split isspace q2) as (ws & EW & W1 & W2).
  destruct (skip isspace q2) as [|x body] eqn:ES.
  - split; [discriminate|]. intros (ws' & sep & tl' & E & H1 & H2 & H3 & H4 & H5 & _). exfalso.
    assert (X : (ws' ++ k ++ sep ++ v)%list = q2).
    { pose proof (until_app (fun c => Ascii.eqb c c_nl || Ascii.eqb c NUL || Ascii.eqb c c_hash)) as U.
      assert (U1 : until (fun c => Ascii.eqb c c_nl || Ascii.eqb c NUL || Ascii.eqb c c_hash) l = q2).
      { rewrite EL. apply U; [intros c I; apply NS in I; unfold stops in I; rewrite !orb_false_iff, !eqb_f; tauto|]. intros c t K. apply TS in K. unfold stops in K. rewrite !orb_true_iff, !Ascii.eqb_eq. tauto. }
      rewrite <- U1, E. replace (ws' ++ k ++ sep ++ v ++ tl')%list with ((ws' ++ k ++ sep ++ v) ++ tl')%list by (rewrite <- !app_assoc; reflexivity). symmetry.
      apply U; [intros c I; apply H1 in I; unfold stops in I; rewrite !orb_false_iff, !eqb_f; tauto|]. intros c t K. apply H2 in K. unfold stops in K. rewrite !orb_true_iff, !Ascii.eqb_eq. tauto. }
    destruct (k ++ sep ++ v)%list as [|c t] eqn:KK; [contradiction|]. specialize (H4 _ _ eq_refl). rewrite app_nil_r in EW.
    assert (I : In c q2) by (rewrite <- X; apply in_or_app; right; left; reflexivity). rewrite EW in I. apply W1 in I. congruence.
  - cbv beta iota zeta. set (b := x :: body) in *. assert (NB : b <> []) by discriminate. clearbody b.
    cbv zeta.
    destruct (until_split key_delim b) as (r & EB & K1 & K2). set (k0 := until key_delim b) in *.
    assert (SK : skipn (length k0) b = r).
    { rewrite EB at 1. rewrite skipn_app, skipn_all, Nat.sub_diag. reflexivity. }
    assert (KD : forall c, key_delim c = true <-> c = c_space \/ c = c_tab \/ c = c_eq).
    { intro c. unfold key_delim. rewrite !orb_true_iff, !Ascii.eqb_eq. tauto. }
    assert (KDf : forall c, key_delim c = false <-> c <> c_space /\ c <> c_tab /\ c <> c_eq).
    { intro c. unfold key_delim. rewrite !orb_false_iff, !eqb_f. tauto. }
    assert (SPd : forall c, key_delim c = true -> (isspace c || Ascii.eqb c c_eq) = true).
    { intros c H. apply KD in H. destruct H as [->|[->| ->]]; reflexivity. }
    assert (Res : exists k1 v1 sep1, match skipn (length k0) b with [] => Some (k0, []) | _ :: v => Some (k0, skip (fun c => isspace c || Ascii.eqb c c_eq) v) end = Some (k1, v1) /\
      k1 = k0 /\ b = (k0 ++ sep1 ++ v1)%list /\ (sep1 = [] -> v1 = []) /\ (forall c t, sep1 = c :: t -> key_delim c = true) /\ (forall c, In c sep1 -> (isspace c || Ascii.eqb c c_eq) = true) /\
      (forall c t, v1 = c :: t -> (isspace c || Ascii.eqb c c_eq) = false)).
    { rewrite SK. destruct r as [|d r].
      - exists k0, [], []. split; [reflexivity|]. split; [reflexivity|]. split; [exact EB|]. repeat split; try discriminate. intros c [].
      - destruct (skip_split (fun c => isspace c || Ascii.eqb c c_eq) r) as (a & EA & P1 & P2).
        exists k0, (skip (fun c => isspace c || Ascii.eqb c c_eq) r), (d :: a). split; [reflexivity|]. split; [reflexivity|]. split; [rewrite EB; cbn [app]; do 2 f_equal; exact EA|].
        split; [discriminate|]. split; [intros c t K; injection K as <- <-; apply (K2 d r eq_refl)|]. split; [|exact P2]. intros c [<-|I]; [apply SPd, (K2 d r eq_refl)|apply P1; exact I]. }
    destruct Res as (k1 & v1 & sep1 & ER & -> & EBB & R1 & R2 & R3 & R4).
    match goal with |- ?y = _ <-> _ => assert (ER' : y = Some (k0, v1)) by exact ER; rewrite ER' end. clear ER ER'. split.
    + intro H. injection H as <- <-. exists ws, sep1, tl. split; [rewrite EL, EW, EBB at 1; rewrite <- !app_assoc; reflexivity|].
      rewrite <- EBB. split; [rewrite <- EW; exact NS|]. split; [exact TS|]. split; [exact W1|]. split; [exact W2|]. split; [exact NB|].
      split; [intros c I; apply KDf, K1; exact I|]. split; [exact R1|]. split; [intros c t K; apply KD; eapply R2; exact K|].
      split; [intros c I; apply R3 in I; apply orb_true_iff in I; rewrite Ascii.eqb_eq in I; exact I|]. intros c t K. apply R4 in K. apply orb_false_iff in K. rewrite eqb_f in K. exact K.
    + intros (ws' & sep & tl' & E & H1 & H2 & H3 & H4 & H5 & H6 & H7 & H8 & H9 & H10).
      assert (X : (ws' ++ k ++ sep ++ v)%list = q2).
      { pose proof (until_app (fun c => Ascii.eqb c c_nl || Ascii.eqb c NUL || Ascii.eqb c c_hash)) as U.
        assert (U1 : until (fun c => Ascii.eqb c c_nl || Ascii.eqb c NUL || Ascii.eqb c c_hash) l = q2).
        { rewrite EL. apply U; [intros c I; apply NS in I; unfold stops in I; rewrite !orb_false_iff, !eqb_f; tauto|]. intros c t K. apply TS in K. unfold stops in K. rewrite !orb_true_iff, !Ascii.eqb_eq. tauto. }
        rewrite <- U1, E. replace (ws' ++ k ++ sep ++ v ++ tl')%list with ((ws' ++ k ++ sep ++ v) ++ tl')%list by (rewrite <- !app_assoc; reflexivity). symmetry.
        apply U; [intros c I; apply H1 in I; unfold stops in I; rewrite !orb_false_iff, !eqb_f; tauto|]. intros c t K. apply H2 in K. unfold stops in K. rewrite !orb_true_iff, !Ascii.eqb_eq. tauto. }
      assert (Y : (k ++ sep ++ v)%list = b) by (rewrite <- ES, <- X; symmetry; apply skip_app; assumption).
      assert (KK : k = k0).
      { unfold k0. rewrite <- Y. symmetry. apply until_app; [intros c I; apply KDf, H6; exact I|]. intros c t K. apply KD. destruct sep as [|d sep]; [rewrite (H7 eq_refl) in K; discriminate|]. injection K as -> _. eapply H8. reflexivity. }
      assert (SV : (sep ++ v)%list = (sep1 ++ v1)%list) by (rewrite EBB, KK in Y; apply app_inv_head in Y; exact Y).
      assert (VV : v = v1).
      { transitivity (skip (fun c => isspace c || Ascii.eqb c c_eq) (sep ++ v)).
        - symmetry. apply skip_app; [intros c I; apply H9 in I; apply orb_true_iff; rewrite Ascii.eqb_eq; exact I|]. intros c t K. apply H10 in K. apply orb_false_iff. rewrite eqb_f. exact K.
        - rewrite SV. apply skip_app; assumption. }
      rewrite KK, VV. reflexivity.
Qed.

Lemma getline_spec : forall f, match getline f with
  | None => f = []
  | Some (l, r) => (r = [] /\ l = f /\ l <> [] /\ ~ In c_nl l) \/ exists q, l = (q ++ [c_nl])%list /\ ~ In c_nl q /\ f = (q ++ c_nl :: r)%list
  end.
Proof.
  induction f as [|c f IH]; [reflexivity|]. cbn [getline]. destruct (Ascii.eqb_spec c c_nl) as [->|N].
  - right. exists []. repeat split. tauto.
  - destruct (getline f) as [[l r]|].
    + destruct IH as [(-> & -> & H1 & H2)|(q & -> & H1 & ->)].
      * left. repeat split; [discriminate|]. intros [K|K]; [congruence|contradiction].
      * right. exists (c :: q). repeat split. intros [K|K]; [congruence|contradiction].
    + subst f. left. repeat split; [discriminate|]. intros [K|K]; [congruence|contradiction].
Qed.

(** C44: the value found is the one assigned by the first line whose key is the one asked for; nothing is found
    only if no line assigns it. *)
Theorem search_key_first : forall ls fuel f key, lines_of f ls -> (length f < fuel)%nat ->
  exists r, search_key fuel (Some f) key = Ok r /\
    match r with
    | Some v => exists l1 l l2 k, ls = (l1 ++ l :: l2)%list /\ assigns l k v /\ same_key k key /\
                  forall l' k' v', In l' l1 -> assigns l' k' v' -> ~ same_key k' key
    | None => forall l k v, In l ls -> assigns l k v -> ~ same_key k key
    end.
Proof.
  cbn [search_key].
  assert (Step : forall q l fuel key f ls, ~ In c_nl q -> (l = q \/ l = q ++ [c_nl])%list ->
    (exists r, search_lines fuel key f = Ok r /\
      match r with
      | Some v => exists l1 l l2 k, ls = (l1 ++ l :: l2)%list /\ assigns l k v /\ same_key k key /\ forall l' k' v', In l' l1 -> assigns l' k' v' -> ~ same_key k' key
      | None => forall l k v, In l ls -> assigns l k v -> ~ same_key k key end) ->
    exists r, (match line_entry l with None => search_lines fuel key f | Some (k, v) => if streq (map tolower k) (map tolower key) then Ok (Some v) else search_lines fuel key f end) = Ok r /\
      match r with
      | Some v => exists l1 l0 l2 k, (l :: ls)%list = (l1 ++ l0 :: l2)%list /\ assigns l0 k v /\ same_key k key /\ forall l' k' v', In l' l1 -> assigns l' k' v' -> ~ same_key k' key
      | None => forall l0 k v, In l0 (l :: ls) -> assigns l0 k v -> ~ same_key k key end).
  { intros q l fuel key f ls N L (r & E & H).
    assert (Skip : (forall k v, assigns l k v -> ~ same_key k key) -> match r with
      | Some v => exists l1 l0 l2 k, (l :: ls)%list = (l1 ++ l0 :: l2)%list /\ assigns l0 k v /\ same_key k key /\ forall l' k' v', In l' l1 -> assigns l' k' v' -> ~ same_key k' key
      | None => forall l0 k v, In l0 (l :: ls) -> assigns l0 k v -> ~ same_key k key end).
    { intro NK. destruct r as [v|].
      - destruct H as (l1 & l0 & l2 & k & -> & A & K & F). exists (l :: l1), l0, l2, k. split; [reflexivity|]. split; [exact A|]. split; [exact K|]. intros l' k' v' [<-|I] A'; [apply (NK k' v' A')|apply (F l' k' v' I A')].
      - intros l0 k v [<-|I] A; [apply (NK k v A)|apply (H l0 k v I A)]. }
    destruct (line_entry l) as [[k v]|] eqn:EL.
    - destruct (streq (map tolower k) (map tolower key)) eqn:SK.
      + apply streq_eq in SK. eexists. split; [reflexivity|]. cbv beta iota. exists [], l, ls, k. split; [reflexivity|]. split; [apply (line_entry_iff q l k v N L); exact EL|]. split; [exact SK|]. intros l' k' v' [].
      + apply streq_neq in SK. exists r. split; [exact E|]. apply Skip. intros k' v' A. apply (line_entry_iff q l k' v' N L) in A. rewrite EL in A. injection A as <- <-. exact SK.
    - exists r. split; [exact E|]. apply Skip. intros k' v' A. apply (line_entry_iff q l k' v' N L) in A. congruence. }
  intros ls fuel f key LO. revert fuel. induction LO as [|l NE N|l r ls N LO IH]; intros [|fuel] L; try (exfalso; lia); cbn [search_lines].
  - exists None. split; [reflexivity|]. intros l k v [].
  - pose proof (getline_spec l) as G. destruct (getline l) as [[l0 r]|]; [|contradiction]. destruct G as [(-> & -> & _ & _)|(q & -> & _ & E)].
    + apply (Step l l); [exact N|left; reflexivity|]. destruct fuel as [|fuel]; [destruct l; [contradiction|cbn in L; lia]|]. exists None. split; [reflexivity|]. intros l0 k v [].
    + exfalso. apply N. rewrite E. apply in_or_app. right. left. reflexivity.
  - pose proof (getline_spec (l ++ c_nl :: r)) as G. destruct (getline (l ++ c_nl :: r)) as [[l0 r0]|]; [|destruct l; discriminate].
    destruct G as [(-> & -> & _ & X)|(q & -> & NQ & E)].
    + exfalso. apply X. apply in_or_app. right. left. reflexivity.
    + destruct (cut_app _ _ _ _ _ E N) as (e & -> & E2). destruct e as [|z e]; cbn [app] in E2.
      * injection E2 as E2. subst r0. rewrite app_nil_r in *. apply (Step l (l ++ [c_nl])%list); [exact N|right; reflexivity|]. apply IH. rewrite app_length in L. cbn in L. lia.
      * injection E2 as E3 E2. exfalso. apply NQ. apply in_or_app. right. left. symmetry. exact E3.
Qed.

Example search_key_example :
  let f := (lit "# comment" ++ [c_nl] ++ lit "  UMASK 022 # old" ++ [c_nl; c_nl] ++ lit "Umask=077" ++ [c_nl] ++ lit "FLAG")%list in
  search_key 99 (Some f) (lit "umask") = Ok (Some (lit "022 ")) /\ search_key 99 (Some f) (lit "flag") = Ok (Some []) /\
  search_key 99 (Some f) (lit "comment") = Ok None /\ search_key 99 (Some f) (lit "UMAS") = Ok None.
Proof. vm_compute. repeat split. Qed.

(** Every file has lines, and lines assign. *)
Example lines_exist : forall f, exists ls, lines_of f ls.
Proof.
  intro f. remember (length f) as n eqn:L. revert f L. induction n as [n IH] using lt_wf_ind. intros f ->.
  destruct (first_line f) as [N|(l & r & -> & N)].
  - destruct f as [|c f]; [exists []; constructor|]. exists [c :: f]. constructor; [discriminate|exact N].
  - destruct (IH (length r)) with (f := r) as [ls H]; [rewrite app_length; cbn; lia|reflexivity|]. exists ((l ++ [c_nl]) :: ls)%list. constructor; assumption.
Qed.
Example assigns_example : assigns (lit "  UMASK 022 # old" ++ [c_nl]) (lit "UMASK") (lit "022 ") /\ assigns (lit "a = = b") (lit "a") (lit "b").
Proof.
  split.
  - apply (line_entry_iff (lit "  UMASK 022 # old")); [vm_compute; intuition discriminate|right; reflexivity|reflexivity].
  - apply (line_entry_iff (lit "a = = b")); [vm_compute; intuition discriminate|left; reflexivity|reflexivity].
Qed.

(** ** Group membership *)
(** The user is in the group: primary group, listed member, or according to the group database. *)
Definition member (pw : passwd) (gr : group) (all : list Z) : Prop :=
  pw_gid pw = gr_gid gr \/ (exists l, gr_mem gr = Some l /\ In (pw_name pw) l) \/ In (gr_gid gr) all.

Lemma in_list : forall x l, existsb (Z.eqb x) l = true <-> In x l.
Proof.
  intros x l. rewrite existsb_exists. split; [intros (y & I & E); apply Z.eqb_eq in E; congruence|]. intro I. exists x. split; [exact I|apply Z.eqb_refl].
Qed.
Lemma groups_checked : forall fuel oom all target, (1 < fuel)%nat ->
  exists r, checkgrouplist fuel oom all NGROUPS_MIN target = Ok r /\
    (r = true -> In target all) /\
    (oom NGROUPS_MIN = false -> oom (length all) = false -> Z.of_nat (length all) <= NGROUPS_LIMIT -> In target all -> r = true).
Proof.
  intros fuel oom all target F. destruct fuel as [|[|fuel]]; try lia. cbn [checkgrouplist].
  destruct (oom NGROUPS_MIN) eqn:O1; [exists false; repeat split; congruence|]. unfold getgrouplist at 1.
  destruct (Nat.leb_spec (length all) NGROUPS_MIN) as [L|L].
  - eexists. split; [reflexivity|]. rewrite in_list. tauto.
  - assert (X : ((0 <? length all) && negb (length all =? NGROUPS_MIN))%nat = true).
    { rewrite andb_true_iff, negb_true_iff, Nat.ltb_lt, Nat.eqb_neq. unfold NGROUPS_MIN in *. lia. }
    rewrite X. cbn [andb]. destruct (Z.leb_spec (Z.of_nat (length all)) NGROUPS_LIMIT) as [M|M].
    + destruct (oom (length all)) eqn:O2; [exists false; repeat split; congruence|]. unfold getgrouplist. rewrite Nat.leb_refl.
      eexists. split; [reflexivity|]. rewrite in_list. tauto.
    + exists false. split; [reflexivity|]. split; [discriminate|]. lia.
Qed.

(** C45: a user reported to be in a group is a member of it; a member is reported, if memory can be allocated and the
    user has at most 65536 groups. *)
Theorem in_group_iff_member : forall fuel oom all pw gr, (1 < fuel)%nat ->
  exists r, user_in_group fuel oom all (Some pw) (Some gr) = Ok r /\ (r = true -> member pw gr all) /\
    (oom NGROUPS_MIN = false -> oom (length all) = false -> Z.of_nat (length all) <= NGROUPS_LIMIT -> member pw gr all -> r = true).
Proof.
  intros fuel oom all pw gr F. unfold user_in_group, member. destruct (Z.eqb_spec (pw_gid pw) (gr_gid gr)) as [E|E]; [exists true; tauto|].
  assert (M : match gr_mem gr with None => false | Some l => existsb (streq (pw_name pw)) l end = true <-> exists l, gr_mem gr = Some l /\ In (pw_name pw) l).
  { destruct (gr_mem gr) as [l|].
    - rewrite existsb_exists. split.
      + intros (x & I & S). apply streq_eq in S. subst x. eauto.
      + intros (l' & K & I). injection K as <-. exists (pw_name pw). split; [exact I|apply streq_refl].
    - split; [discriminate|]. intros (l & K & _). discriminate. }
  destruct (match gr_mem gr with None => false | Some l => existsb (streq (pw_name pw)) l end).
  - exists true. tauto.
  - destruct (groups_checked fuel oom all (gr_gid gr) F) as (r & -> & H1 & H2). exists r. split; [reflexivity|]. split; [tauto|].
    intros O1 O2 L [K|[K|K]]; [contradiction|apply M in K; discriminate|auto].
Qed.
(** C45: an unknown user or group has no membership. *)
Theorem unknown_is_no_member : forall fuel oom all pw gr, pw = None \/ gr = None -> user_in_group fuel oom all pw gr = Ok false.
Proof. intros fuel oom all pw gr [->| ->]; [reflexivity|]. destruct pw; reflexivity. Qed.
(** C45 is false without the limit: a user with more than 65536 groups is not found in a group of theirs. *)
Theorem member_reported_refuted : exists all pw gr, member pw gr all /\ user_in_group 9 (fun _ => false) all (Some pw) (Some gr) = Ok false.
Proof.
  exists (List.map Z.of_nat (seq 0 (Z.to_nat 65537))), (mkPw (lit "u") 1 1), (mkGr 5 None). split.
  - right. right. cbn [gr_gid]. change 5 with (Z.of_nat 5). apply in_map. apply in_seq. lia.
  - unfold user_in_group. cbn [pw_gid gr_gid gr_mem Z.eqb Pos.eqb]. cbn [checkgrouplist]. unfold getgrouplist. rewrite map_length, seq_length.
    destruct (Nat.leb_spec (Z.to_nat 65537) NGROUPS_MIN) as [L|L]; [unfold NGROUPS_MIN in L; lia|]. rewrite Z2Nat.id by lia.
    change (65537 <=? NGROUPS_LIMIT) with false. rewrite andb_false_r. reflexivity.
Qed.
Example in_group_example :
  let gr := mkGr 7 (Some [lit "alice"; lit "bob"]) in
  user_in_group 2 (fun _ => false) [3] (Some (mkPw (lit "bob") 1 3)) (Some gr) = Ok true /\
  user_in_group 2 (fun _ => false) (3 :: repeat 4 150 ++ [7]) (Some (mkPw (lit "eve") 1 3)) (Some gr) = Ok true /\
  user_in_group 2 (fun _ => false) (repeat 4 150) (Some (mkPw (lit "eve") 1 3)) (Some gr) = Ok false.
Proof. vm_compute. repeat split. Qed.

(** ** Privileges *)
Lemma setfsuid_same : forall u k, fsuid k = u -> snd (setfsuid u k) = k.
Proof. intros u [] <-. unfold setfsuid, with_fsuid. cbn. destruct (_ && _); reflexivity. Qed.
(** change_uid: either it worked, or nothing happened. *)
Lemma change_uid_cases : forall u k r save k', change_uid u k = (r, save, k') ->
  save = fsuid k /\ ((r = 0 /\ k' = with_fsuid u k) \/ (r = -1 /\ k' = k /\ cap_setuid k && valid_id u = false)).
Proof.
  intros u k r save k' H. unfold change_uid, setfsuid in H.
  destruct (valid_id u && (cap_setuid k || (u =? ruid k) || (u =? euid k) || (u =? suid k) || (u =? fsuid k))) eqn:P.
  - cbn [with_fsuid fsuid cap_setuid ruid euid suid] in H. rewrite Z.eqb_refl in H. rewrite !orb_true_r, andb_true_r in H. injection H as <- <- <-. split; [reflexivity|]. left.
    split; [reflexivity|]. destruct (valid_id u); reflexivity.
  - rewrite P in H. injection H as <- <- <-. split; [reflexivity|]. destruct (Z.eqb_spec (fsuid k) u) as [E|E].
    + left. split; [reflexivity|]. destruct k; cbn in *; subst; reflexivity.
    + right. split; [reflexivity|]. split; [reflexivity|]. destruct (cap_setuid k), (valid_id u); cbn in *; congruence.
Qed.
Lemma change_gid_cases : forall u k r save k', change_gid u k = (r, save, k') ->
  save = fsgid k /\ ((r = 0 /\ k' = with_fsgid u k) \/ (r = -1 /\ k' = k /\ cap_setgid k && valid_id u = false)).
Proof.
  intros u k r save k' H. unfold change_gid, setfsgid in H.
  destruct (valid_id u && (cap_setgid k || (u =? rgid k) || (u =? egid k) || (u =? sgid k) || (u =? fsgid k))) eqn:P.
  - cbn [with_fsgid fsgid cap_setgid rgid egid sgid] in H. rewrite Z.eqb_refl in H. rewrite !orb_true_r, andb_true_r in H. injection H as <- <- <-. split; [reflexivity|]. left.
    split; [reflexivity|]. destruct (valid_id u); reflexivity.
  - rewrite P in H. injection H as <- <- <-. split; [reflexivity|]. destruct (Z.eqb_spec (fsgid k) u) as [E|E].
    + left. split; [reflexivity|]. destruct k; cbn in *; subst; reflexivity.
    + right. split; [reflexivity|]. split; [reflexivity|]. destruct (cap_setgid k), (valid_id u); cbn in *; congruence.
Qed.

(** The array is as long as the structure says. *)
Definition wf_privs (p : privs) : Prop := match grplist p with Some a => number p <= Z.of_nat (length a) | None => number p = 0 end.
(** The saved data are those of the credentials [k]. *)
Definition saved (p : privs) (k : cred) : Prop :=
  dropped p = PRIV_MAGIC /\ old_uid p = fsuid k /\ old_gid p = fsgid k /\ exists t, grplist p = Some (groups k ++ t)%list /\ number p = Z.of_nat (length (groups k)).

Lemma set_saved_groups : forall fail p k g t, grplist p = Some (g ++ t)%list -> number p = Z.of_nat (length g) -> set_saved fail p k = Some (setgroups fail g k).
Proof.
  intros fail p k g t E N. unfold set_saved. rewrite E, N, app_length. destruct (Z.leb_spec (Z.of_nat (length g)) (Z.of_nat (length g + length t))) as [L|L]; [|lia].
  rewrite Nat2Z.id, firstn_app, firstn_all, Nat.sub_diag. cbn [firstn]. rewrite app_nil_r. reflexivity.
Qed.

(** All that can happen in pam_modutil_drop_priv. *)
Lemma drop_cases : forall y p pw k, wf_privs p -> valid_id (fsgid k) = true ->
  exists r p' k', drop_priv y p pw k = Ok (r, p', k') /\ wf_privs p' /\
    ((dropped p <> 0 /\ r = -1 /\ p' = p /\ k' = k) \/
     (dropped p = 0 /\ r = 0 /\ dropped p' = PRIV_DONOTHING /\ k' = k /\ (euid k <> 0 \/ pw_uid pw = 0)) \/
     (dropped p = 0 /\ r = -1 /\ dropped p' = 0 /\ k' = k) \/
     (dropped p = 0 /\ r = -1 /\ dropped p' = 0 /\ y_restore_fails y = true /\ exists g, k' = with_groups g k) \/
     (dropped p = 0 /\ r = 0 /\ saved p' k /\ euid k = 0 /\ pw_uid pw <> 0 /\ cap_setgid k = true /\
        exists g, (y_db y = Some g \/ g = []) /\ k' = with_fsuid (pw_uid pw) (with_fsgid (pw_gid pw) (with_groups g k)))).
Proof.
  intros y p pw k W V. unfold drop_priv. destruct (Z.eqb_spec (dropped p) 0) as [D|D]; cbn [negb].
  2:{ eexists _, _, _. split; [reflexivity|]. split; [exact W|]. left. auto. }
  destruct (negb (euid k =? 0) || (pw_uid pw =? 0)) eqn:R.
  { eexists _, _, _. split; [reflexivity|]. split; [exact W|]. right. left. split; [exact D|]. split; [reflexivity|]. split; [reflexivity|]. split; [reflexivity|].
    apply orb_true_iff in R. rewrite negb_true_iff, Z.eqb_neq, Z.eqb_eq in R. exact R. }
  apply orb_false_iff in R. rewrite negb_false_iff, Z.eqb_eq, Z.eqb_neq in R. destruct R as [R0 R1].
  assert (Plain : forall p', wf_privs p' -> dropped p' = 0 -> exists r p1 k', Ok (-1, p', k) = Ok (r, p1, k') /\ wf_privs p1 /\
    ((dropped p <> 0 /\ r = -1 /\ p1 = p /\ k' = k) \/
     (dropped p = 0 /\ r = 0 /\ dropped p1 = PRIV_DONOTHING /\ k' = k /\ (euid k <> 0 \/ pw_uid pw = 0)) \/
     (dropped p = 0 /\ r = -1 /\ dropped p1 = 0 /\ k' = k) \/
     (dropped p = 0 /\ r = -1 /\ dropped p1 = 0 /\ y_restore_fails y = true /\ exists g, k' = with_groups g k) \/
     (dropped p = 0 /\ r = 0 /\ saved p1 k /\ euid k = 0 /\ pw_uid pw <> 0 /\ cap_setgid k = true /\
        exists g, (y_db y = Some g \/ g = []) /\ k' = with_fsuid (pw_uid pw) (with_fsgid (pw_gid pw) (with_groups g k))))).
  { intros p' W' D'. eexists _, _, _. split; [reflexivity|]. split; [exact W'|]. right. right. left. auto. }
  destruct (match grplist p with None => true | Some _ => false end || (number p <=? 0)) eqn:G; [apply Plain; assumption|].
  apply orb_false_iff in G. destruct G as [G0 G1]. destruct (grplist p) as [a|] eqn:GA; [|discriminate]. clear G0. apply Z.leb_gt in G1.
  unfold wf_privs in W. rewrite GA in W.
  destruct (y_count_fails y); [apply Plain; [unfold wf_privs; rewrite GA; exact W|exact D]|]. cbn [grplist number allocated old_gid old_uid dropped].
  set (n := Z.of_nat (length (groups k))).
  destruct ((number p <? n) && y_oom y); [apply Plain; [cbn; lia|exact D]|].
  set (p1 := if number p <? n then _ else _).
  assert (P1 : exists a1, grplist p1 = Some a1 /\ (length (groups k) <= length a1)%nat /\ dropped p1 = 0).
  { subst p1. destruct (Z.ltb_spec (number p) n) as [L|L]; cbn [grplist dropped]; eexists; (split; [reflexivity|]); (split; [rewrite ?repeat_length; subst n; lia|exact D]). }
  destruct P1 as (a1 & E1 & L1 & D1). clearbody p1.
  destruct (y_get_fails y); [apply Plain; [cbn; lia|exact D1]|].
  unfold write_groups. rewrite E1. rewrite (proj2 (Nat.leb_le _ _) L1). cbn [grplist number allocated old_gid old_uid dropped].
  set (arr := (groups k ++ skipn (length (groups k)) a1)%list).
  destruct (initgroups (y_db y) (y_init_fails y) k) as [ri ki] eqn:EI.
  assert (Grp : forall r1 k1, (if negb (ri =? 0) then setgroups (y_clear_fails y) [] ki else (0, ki)) = (r1, k1) ->
    (r1 = -1 /\ k1 = k) \/ (r1 = 0 /\ cap_setgid k = true /\ exists g, (y_db y = Some g \/ g = []) /\ k1 = with_groups g k)).
  { intros r1 k1 H. unfold initgroups, setgroups in EI. destruct (y_db y) as [g|].
    - destruct (y_init_fails y || negb (cap_setgid k)) eqn:C; injection EI as <- <-; cbn [negb Z.eqb] in H.
      + unfold setgroups in H. destruct (y_clear_fails y || negb (cap_setgid k)) eqn:C2; injection H as <- <-; [left; auto|]. right. apply orb_false_iff in C2. destruct C2 as [_ C2]. apply negb_false_iff in C2. split; [reflexivity|]. split; [exact C2|]. exists []. auto.
      + injection H as <- <-. apply orb_false_iff in C. destruct C as [_ C]. apply negb_false_iff in C. right. split; [reflexivity|]. split; [exact C|]. exists g. auto.
    - injection EI as <- <-. cbn [negb Z.eqb] in H. unfold setgroups in H. destruct (y_clear_fails y || negb (cap_setgid k)) eqn:C2; injection H as <- <-; [left; auto|]. right. apply orb_false_iff in C2. destruct C2 as [_ C2]. apply negb_false_iff in C2. split; [reflexivity|]. split; [exact C2|]. exists []. auto. }
  destruct (if negb (ri =? 0) then setgroups (y_clear_fails y) [] ki else (0, ki)) as [r1 k1] eqn:ES. specialize (Grp r1 k1 eq_refl).
  destruct Grp as [[-> ->]|(-> & CG & g & DB & ->)]; cbn [negb Z.eqb]; [apply Plain; [cbn; lia|exact D1]|].
  destruct (change_gid (pw_gid pw) (with_groups g k)) as [[rg sv] k2] eqn:EG. apply change_gid_cases in EG. cbn [with_groups fsgid cap_setgid] in EG. destruct EG as [-> EG].
  (* the restoration of the groups *)
  assert (Back : forall q kk, grplist q = Some arr -> number q = n -> cap_setgid kk = true -> (exists g1, kk = with_groups g1 k) -> dropped q = 0 ->
    exists r p1 k', match set_saved (y_restore_fails y) q kk with None => UB | Some (_, k3) => Ok (-1, cleanup q, k3) end = Ok (r, p1, k') /\ wf_privs p1 /\
    ((dropped p <> 0 /\ r = -1 /\ p1 = p /\ k' = k) \/
     (dropped p = 0 /\ r = 0 /\ dropped p1 = PRIV_DONOTHING /\ k' = k /\ (euid k <> 0 \/ pw_uid pw = 0)) \/
     (dropped p = 0 /\ r = -1 /\ dropped p1 = 0 /\ k' = k) \/
     (dropped p = 0 /\ r = -1 /\ dropped p1 = 0 /\ y_restore_fails y = true /\ exists g, k' = with_groups g k) \/
     (dropped p = 0 /\ r = 0 /\ saved p1 k /\ euid k = 0 /\ pw_uid pw <> 0 /\ cap_setgid k = true /\
        exists g, (y_db y = Some g \/ g = []) /\ k' = with_fsuid (pw_uid pw) (with_fsgid (pw_gid pw) (with_groups g k))))).
  { intros q kk Q1 Q2 CK [g1 ->] DQ. rewrite (set_saved_groups _ _ _ _ _ Q1 Q2). unfold setgroups. rewrite CK. cbn [negb]. rewrite orb_false_r.
    destruct (y_restore_fails y) eqn:YR; eexists _, _, _; (split; [reflexivity|]); (split; [cbn; lia|]); right; right; [right; left|left]; (split; [exact D|]); (split; [reflexivity|]); (split; [exact DQ|]).
    - split; [reflexivity|]. exists g1. reflexivity.
    - destruct k; reflexivity. }
  destruct EG as [[-> ->]|(-> & -> & _)]; cbn [negb Z.eqb].
  2:{ apply Back; [reflexivity|reflexivity|exact CG|exists g; reflexivity|exact D1]. }
  destruct (change_uid (pw_uid pw) (with_fsgid (pw_gid pw) (with_groups g k))) as [[ru sv2] k3] eqn:EU. apply change_uid_cases in EU. cbn [with_fsgid with_groups fsuid cap_setuid] in EU. destruct EU as [-> EU].
  cbn [grplist number allocated old_gid old_uid dropped].
  destruct EU as [[-> ->]|(-> & -> & _)]; cbn [negb Z.eqb].
  - eexists _, _, _. split; [reflexivity|]. split; [unfold wf_privs; cbn; unfold arr; rewrite app_length; subst n; lia|]. right. right. right. right.
    split; [exact D|]. split; [reflexivity|]. split; [unfold saved; cbn; repeat split; exists (skipn (length (groups k)) a1); split; reflexivity|]. split; [exact R0|]. split; [exact R1|]. split; [exact CG|]. exists g. split; [exact DB|reflexivity].
  - match goal with |- context [change_gid ?g0 ?k0] => destruct (change_gid g0 k0) as [[rr ss] k4] eqn:EG2 end. apply change_gid_cases in EG2. destruct EG2 as [_ EG2].
    cbn [with_fsgid with_groups cap_setgid] in EG2. rewrite CG, V in EG2. destruct EG2 as [[_ ->]|(_ & _ & F)]; [|discriminate].
    apply Back; [reflexivity|reflexivity|exact CG| |exact D1]. exists g. destruct k; reflexivity.
Qed.

(** C31: a failing pam_modutil_drop_priv leaves the credentials as they were, unless the kernel refuses to set the
    old list of groups again. *)
Theorem failed_drop_changes_nothing : forall y p pw k r p' k', wf_privs p -> valid_id (fsgid k) = true -> y_restore_fails y = false ->
  drop_priv y p pw k = Ok (r, p', k') -> r <> 0 -> k' = k.
Proof.
  intros y p pw k r p' k' W V Y H NR. destruct (drop_cases y p pw k W V) as (r0 & p0 & k0 & E & _ & C). rewrite E in H. injection H as -> -> ->.
  destruct C as [(_ & _ & _ & ->)|[(_ & -> & _)|[(_ & _ & _ & ->)|[(_ & _ & _ & Y1 & _)|(_ & -> & _)]]]]; try reflexivity; congruence.
Qed.
(** C31: after success the file system ids are those of the user and no group of the caller is left, unless there
    was nothing to drop. *)
Theorem successful_drop : forall y p pw k r p' k', wf_privs p -> valid_id (fsgid k) = true -> drop_priv y p pw k = Ok (r, p', k') -> r = 0 ->
  ((euid k <> 0 \/ pw_uid pw = 0) /\ k' = k) \/
  (fsuid k' = pw_uid pw /\ fsgid k' = pw_gid pw /\ (y_db y = Some (groups k') \/ groups k' = []) /\ euid k' = euid k /\ ruid k' = ruid k /\ egid k' = egid k /\ rgid k' = rgid k).
Proof.
  intros y p pw k r p' k' W V H ->. destruct (drop_cases y p pw k W V) as (r0 & p0 & k0 & E & _ & C). rewrite E in H. injection H as -> -> ->.
  destruct C as [(_ & X & _)|[(_ & _ & _ & -> & U)|[(_ & X & _)|[(_ & X & _)|(_ & _ & _ & _ & _ & _ & g & DB & ->)]]]]; try discriminate; [left; auto|].
  right. cbn. repeat split. destruct DB as [DB| ->]; auto.
Qed.
(** C31: neither call is undefined for a structure set up with PAM_MODUTIL_DEF_PRIVS or left by these calls. *)
Theorem drop_defined : forall y p pw k, wf_privs p -> valid_id (fsgid k) = true -> exists r p' k', drop_priv y p pw k = Ok (r, p', k') /\ wf_privs p'.
Proof. intros y p pw k W V. destruct (drop_cases y p pw k W V) as (r & p' & k' & E & W' & _). eauto. Qed.
Theorem regain_defined : forall fail p k, wf_privs p -> exists r p' k', regain_priv fail p k = Ok (r, p', k') /\ wf_privs p'.
Proof.
  intros fail p k W. unfold regain_priv. destruct (dropped p =? PRIV_DONOTHING); [eexists _, _, _; split; [reflexivity|exact W]|].
  destruct (dropped p =? PRIV_MAGIC); cbn [negb]; [|eexists _, _, _; split; [reflexivity|exact W]].
  destruct (change_uid (old_uid p) k) as [[r sv] k3]. destruct (r =? 0); cbn [negb]; [|eexists _, _, _; split; [reflexivity|cbn; reflexivity]].
  destruct (change_gid (old_gid p) k3) as [[r2 sv2] k4]. destruct (r2 =? 0); cbn [negb]; [|eexists _, _, _; split; [reflexivity|cbn; reflexivity]].
  assert (S : exists x, set_saved fail p k4 = Some x).
  { unfold set_saved, wf_privs in *. destruct (grplist p) as [a|]; [rewrite (proj2 (Z.leb_le _ _) W)|rewrite W]; eexists; reflexivity. }
  destruct S as [[r3 k5] ->]. destruct (r3 =? 0); cbn [negb]; eexists _, _, _; (split; [reflexivity|cbn; reflexivity]).
Qed.
(** C31: dropping twice and regaining without having dropped are refused and change nothing. *)
Theorem wrong_order_refused : forall y fail p pw k,
  (dropped p <> 0 -> drop_priv y p pw k = Ok (-1, p, k)) /\
  (dropped p <> PRIV_MAGIC -> dropped p <> PRIV_DONOTHING -> regain_priv fail p k = Ok (-1, p, k)).
Proof.
  intros y fail p pw k. split.
  - intro D. unfold drop_priv. rewrite (proj2 (Z.eqb_neq _ _) D). reflexivity.
  - intros D1 D2. unfold regain_priv. rewrite (proj2 (Z.eqb_neq _ _) D2), (proj2 (Z.eqb_neq _ _) D1). reflexivity.
Qed.

Lemma regain_cases : forall fail p k k2, saved p k -> exists r p' k', regain_priv fail p k2 = Ok (r, p', k') /\ wf_privs p' /\
  ((r = 0 /\ dropped p' = 0 /\ k' = with_groups (groups k) (with_fsgid (fsgid k) (with_fsuid (fsuid k) k2))) \/ (r = -1 /\ dropped p' = PRIV_MAGIC)).
Proof.
  intros fail p k k2 (D & U & G & t & A & N). unfold regain_priv. rewrite D. cbn [Z.eqb]. rewrite Z.eqb_refl. cbn [negb].
  destruct (change_uid (old_uid p) k2) as [[r sv] k3] eqn:EU. apply change_uid_cases in EU. destruct EU as [_ [[-> ->]|(-> & _)]]; cbn [negb Z.eqb].
  2:{ eexists _, _, _. split; [reflexivity|]. split; [cbn; lia|]. right. split; [reflexivity|exact D]. }
  destruct (change_gid (old_gid p) (with_fsuid (old_uid p) k2)) as [[r sv2] k4] eqn:EG. apply change_gid_cases in EG. destruct EG as [_ [[-> ->]|(-> & _)]]; cbn [negb Z.eqb].
  2:{ eexists _, _, _. split; [reflexivity|]. split; [cbn; lia|]. right. split; [reflexivity|exact D]. }
  rewrite (set_saved_groups _ _ _ _ _ A N). unfold setgroups. destruct (fail || negb (cap_setgid _)); cbn [negb Z.eqb].
  - eexists _, _, _. split; [reflexivity|]. split; [cbn; lia|]. right. split; [reflexivity|exact D].
  - eexists _, _, _. split; [reflexivity|]. split; [cbn; lia|]. left. rewrite U, G. repeat split.
Qed.

(** C31: what was dropped is regained: if pam_modutil_drop_priv succeeded and the following pam_modutil_regain_priv
    succeeds, the credentials are the original ones. *)
Theorem regain_restores : forall y fail p pw k p1 k1 p2 k2, wf_privs p -> valid_id (fsgid k) = true -> dropped p = 0 ->
  drop_priv y p pw k = Ok (0, p1, k1) -> regain_priv fail p1 k1 = Ok (0, p2, k2) -> k2 = k /\ dropped p2 = 0.
Proof.
  intros y fail p pw k p1 k1 p2 k2 W V D H1 H2. destruct (drop_cases y p pw k W V) as (r0 & p0 & k0 & E & _ & C). rewrite E in H1. injection H1 as -> -> ->.
  destruct C as [(_ & X & _)|[(_ & _ & DN & -> & _)|[(_ & X & _)|[(_ & X & _)|(_ & _ & S & _ & _ & _ & g & _ & ->)]]]]; try discriminate.
  - unfold regain_priv in H2. rewrite DN, Z.eqb_refl in H2. injection H2 as <- <-. split; reflexivity.
  - destruct (regain_cases fail p1 k (with_fsuid (pw_uid pw) (with_fsgid (pw_gid pw) (with_groups g k))) S) as (r & p' & k' & E2 & _ & K). rewrite E2 in H2. injection H2 as -> -> ->.
    destruct K as [(_ & D2 & ->)|[X _]]; [|discriminate]. split; [destruct k; reflexivity|exact D2].
Qed.

(** A history of calls on one structure. *)
Inductive pcall := CDrop (y : psys) (pw : passwd) | CRegain (fail : bool).
Definition pstep (c : pcall) (s : privs * cred) : res (Z * privs * cred) :=
  match c with CDrop y pw => drop_priv y (fst s) pw (snd s) | CRegain fail => regain_priv fail (fst s) (snd s) end.
(** The history runs from one state to another; no call to restore the groups fails and no regaining fails after a
    successful drop. *)
Inductive runs : privs * cred -> list pcall -> privs * cred -> Prop :=
| R_nil : forall s, runs s [] s
| R_cons : forall s c r p k l s', pstep c s = Ok (r, p, k) ->
    match c with CDrop y _ => y_restore_fails y = false | CRegain _ => r = 0 \/ dropped (fst s) = 0 end -> runs (p, k) l s' -> runs s (c :: l) s'.

(** C31: over any such history: whenever the structure says that privileges are not dropped, the credentials are the
    original ones. *)
Theorem never_left_dropped : forall l p k p' k', wf_privs p -> valid_id (fsgid k) = true -> dropped p = 0 -> runs (p, k) l (p', k') -> dropped p' = 0 -> k' = k.
Proof.
  intros l p k p' k' W V D R.
  assert (G : forall s, wf_privs (fst s) -> ((dropped (fst s) = 0 \/ dropped (fst s) = PRIV_DONOTHING) /\ snd s = k \/ saved (fst s) k /\ exists u g l, snd s = with_fsuid u (with_fsgid g (with_groups l k))) ->
    forall l s', runs s l s' -> dropped (fst s') = 0 -> snd s' = k).
  { clear - V. intros s W H l s' R. revert W H. induction R as [s|s c r p1 k1 l s' E C R IH]; intros W H.
    - intro D. destruct H as [[_ H]|[(H & _) _]]; [exact H|]. rewrite H in D. discriminate.
    - apply IH; clear IH R; destruct s as [p k0]; cbn [fst snd] in *; destruct c as [y pw|fail]; cbn [pstep fst snd] in E.
      + destruct H as [[H ->]|[S (u & g & gl & ->)]].
        * destruct (drop_cases y p pw k W V) as (r0 & p0 & k2 & E2 & W2 & _). rewrite E2 in E. injection E as -> -> ->. exact W2.
        * rewrite (proj1 (wrong_order_refused y false p pw _)) in E by (destruct S as [-> _]; discriminate). injection E as <- <- <-. exact W.
      + destruct H as [[[H|H] ->]|[S (u & g & gl & ->)]].
        * rewrite (proj2 (wrong_order_refused (mkSys false false false None false false false) fail p (mkPw [] 0 0) k)) in E by (rewrite H; discriminate). injection E as <- <- <-. exact W.
        * unfold regain_priv in E. rewrite H, Z.eqb_refl in E. injection E as <- <- <-. exact W.
        * destruct (regain_cases fail p k (with_fsuid u (with_fsgid g (with_groups gl k))) S) as (r0 & p0 & k2 & E2 & W2 & _). rewrite E2 in E. injection E as -> -> ->. exact W2.
      + destruct H as [[H ->]|[S (u & g & gl & ->)]].
        * destruct (drop_cases y p pw k W V) as (r0 & p0 & k2 & E2 & W2 & K). rewrite E2 in E. injection E as -> -> ->.
          destruct K as [(_ & _ & -> & ->)|[(_ & _ & DN & -> & _)|[(_ & _ & DN & ->)|[(_ & _ & _ & Y1 & _)|(_ & _ & S & _ & _ & _ & g & _ & ->)]]]]; [left; auto|left; auto|left; auto|congruence|right].
          split; [exact S|]. exists (pw_uid pw), (pw_gid pw), g. reflexivity.
        * rewrite (proj1 (wrong_order_refused y false p pw _)) in E by (destruct S as [-> _]; discriminate). injection E as <- <- <-. right. split; [exact S|]. exists u, g, gl. reflexivity.
      + destruct H as [[[H|H] ->]|[S (u & g & gl & ->)]].
        * rewrite (proj2 (wrong_order_refused (mkSys false false false None false false false) fail p (mkPw [] 0 0) k)) in E by (rewrite H; discriminate). injection E as <- <- <-. left. auto.
        * unfold regain_priv in E. rewrite H, Z.eqb_refl in E. injection E as <- <- <-. left. cbn. auto.
        * destruct (regain_cases fail p k (with_fsuid u (with_fsgid g (with_groups gl k))) S) as (r0 & p0 & k2 & E2 & W2 & K). rewrite E2 in E. injection E as -> -> ->.
          destruct C as [C|C]; [|destruct S as [S _]; rewrite S in C; discriminate]. destruct K as [(_ & D2 & ->)|[X _]]; [|congruence]. left. split; [left; exact D2|]. destruct k; reflexivity. }
  intro D'. apply (G (p, k) W (or_introl (conj (or_introl D) eq_refl)) l (p', k') R D').
Qed.

Definition root_cred : cred := mkCred 0 0 0 0 0 0 0 0 [0; 10] true true.
Definition sys_ok : psys := mkSys false false false (Some [100; 20]) false false false.
Definition user_pw : passwd := mkPw (lit "u") 1000 100.
Definition fresh_privs : privs := def_privs (repeat 0 64).

Example privs_example :
  wf_privs fresh_privs /\ valid_id (fsgid root_cred) = true /\
  exists p1 k1 p2, drop_priv sys_ok fresh_privs user_pw root_cred = Ok (0, p1, k1) /\ fsuid k1 = 1000 /\ fsgid k1 = 100 /\ groups k1 = [100; 20] /\
    regain_priv false p1 k1 = Ok (0, p2, root_cred) /\
    drop_priv sys_ok p1 user_pw k1 = Ok (-1, p1, k1) /\ regain_priv false p2 root_cred = Ok (-1, p2, root_cred) /\
    runs (fresh_privs, root_cred) [CRegain false; CDrop sys_ok user_pw; CDrop sys_ok user_pw; CRegain false] (p2, root_cred).
Proof.
  split; [cbn; lia|]. split; [reflexivity|].
  destruct (drop_priv sys_ok fresh_privs user_pw root_cred) as [[[r p1] k1]| |] eqn:E; try (vm_compute in E; discriminate).
  destruct (regain_priv false p1 k1) as [[[r2 p2] k2]| |] eqn:E2; try (vm_compute in E; injection E as <- <- <-; vm_compute in E2; discriminate).
  pose proof E as E'. pose proof E2 as E2'. vm_compute in E. injection E as <- <- <-. vm_compute in E2. injection E2 as <- <- <-.
  eexists _, _, _. repeat match goal with |- _ /\ _ => split end; try (vm_compute; reflexivity); try reflexivity.
  eapply R_cons; [vm_compute; reflexivity|right; reflexivity|]. eapply R_cons; [vm_compute; reflexivity|reflexivity|].
  eapply R_cons; [vm_compute; reflexivity|reflexivity|]. eapply R_cons; [vm_compute; reflexivity|left; reflexivity|]. apply R_nil.
Qed.

(** C31 is false when the kernel refuses to set the old list of groups: a failed drop loses the groups (here the
    user id cannot be changed to -1, and the kernel has no memory for the list). *)
Theorem failed_drop_changes_nothing_refuted : exists y p pw k p' k', wf_privs p /\ valid_id (fsgid k) = true /\ drop_priv y p pw k = Ok (-1, p', k') /\ groups k = [0; 10] /\ groups k' = [100; 20].
Proof.
  exists (mkSys false false false (Some [100; 20]) false false true), fresh_privs, (mkPw (lit "u") 4294967295 100), root_cred. eexists _, _.
  split; [cbn; lia|]. split; [reflexivity|]. split; [vm_compute; reflexivity|]. split; reflexivity.
Qed.
(** C31 is false for a repeated regain: after a regain that failed, the next one reports success with the
    supplementary groups lost, because the saved list is gone. *)
Theorem regain_again_restores_refuted : exists y p pw k p1 k1 p2 k2 p3 k3, wf_privs p /\ dropped p = 0 /\ drop_priv y p pw k = Ok (0, p1, k1) /\
  regain_priv true p1 k1 = Ok (-1, p2, k2) /\ regain_priv false p2 k2 = Ok (0, p3, k3) /\ groups k = [0; 10] /\ groups k3 = [].
Proof.
  exists sys_ok, fresh_privs, user_pw, root_cred. do 6 eexists. split; [cbn; lia|]. split; [reflexivity|]. split; [vm_compute; reflexivity|]. split; [vm_compute; reflexivity|]. split; [vm_compute; reflexivity|]. split; reflexivity.
Qed.
(** A structure serves once: after drop and regain the next drop fails, as the room for the groups is gone. *)
Theorem second_drop_refuted : exists y p pw k p1 k1 p2, wf_privs p /\ dropped p = 0 /\ drop_priv y p pw k = Ok (0, p1, k1) /\
  regain_priv false p1 k1 = Ok (0, p2, k) /\ dropped p2 = 0 /\ drop_priv y p2 pw k = Ok (-1, p2, k).
Proof.
  exists sys_ok, fresh_privs, user_pw, root_cred. do 3 eexists. split; [cbn; lia|]. split; [reflexivity|]. split; [vm_compute; reflexivity|]. split; [vm_compute; reflexivity|]. split; vm_compute; reflexivity.
Qed.

(** * The descriptors of helper programs *)
Lemma lowest_free : forall tries n t m, lowest tries n t = Some m -> t m = None /\ (m < n + tries)%nat.
Proof.
  induction tries as [|k IH]; intros n t m H; cbn [lowest] in H; [discriminate|].
  destruct (t n) eqn:E; [destruct (IH _ _ _ H); split; [assumption|lia]|]. injection H as <-. split; [exact E|lia].
Qed.
Lemma new_fd_free : forall l o t n t', new_fd l o t = Some (n, t') -> table t n = None /\ t' = set_fd n (Some o) t.
Proof. intros l o t n t' H. unfold new_fd in H. destruct (lowest l 0 (table t)) as [m|] eqn:E; [|discriminate]. injection H as <- <-. split; [apply (lowest_free _ _ _ _ E)|reflexivity]. Qed.

Lemma in_pipe_effect : forall y fd t ok t', redirect_in_pipe y fd t = (ok, t') ->
  (pipes t <= pipes t')%nat /\ (forall n, n <> fd -> table t' n = table t n) /\
  table t' fd = (if ok then Some (PipeRead (pipes t)) else table t fd) /\ (ok = true -> (pipes t < pipes t')%nat).
Proof.
  intros y fd t ok t' H. unfold redirect_in_pipe, pipe in H. destruct (f_pipe y fd); [injection H as <- <-; repeat split; auto; discriminate|].
  destruct (new_fd (f_limit y) (PipeRead (pipes t)) t) as [[r t1]|] eqn:E1; [|injection H as <- <-; repeat split; auto; discriminate].
  apply new_fd_free in E1. destruct E1 as [F1 ->].
  destruct (new_fd (f_limit y) (PipeWrite (pipes t)) (set_fd r (Some (PipeRead (pipes t))) t)) as [[w t2]|] eqn:E2; [|injection H as <- <-; repeat split; auto; discriminate].
  apply new_fd_free in E2. destruct E2 as [F2 ->]. cbn [set_fd table pipes] in *.
  destruct (Nat.eqb_spec w r) as [EW|NW]; [discriminate|].
  destruct (Nat.eqb_spec r fd) as [->|NR].
  - injection H as <- <-. cbn [set_fd table pipes]. split; [lia|]. split; [|split; [|lia]].
    + intros n Nn. destruct (Nat.eqb_spec n w) as [->|]; [congruence|]. destruct (Nat.eqb_spec n fd); [contradiction|reflexivity].
    + destruct (Nat.eqb_spec fd w); [congruence|]. rewrite Nat.eqb_refl. reflexivity.
  - unfold dup2 in H. destruct (f_dup y fd); injection H as <- <-; cbn [set_fd table pipes].
    + split; [lia|]. split; [|split; [|discriminate]].
      * intros n Nn. destruct (Nat.eqb_spec n r) as [->|]; [congruence|]. destruct (Nat.eqb_spec n w) as [->|]; [congruence|reflexivity].
      * destruct (Nat.eqb_spec fd r) as [->|]; [congruence|]. destruct (Nat.eqb_spec fd w) as [->|]; [congruence|reflexivity].
    + split; [lia|]. split; [|split; [|lia]].
      * intros n Nn. destruct (Nat.eqb_spec n r) as [->|]; [congruence|]. destruct (Nat.eqb_spec n fd); [contradiction|]. destruct (Nat.eqb_spec n w) as [->|]; [congruence|reflexivity].
      * destruct (Nat.eqb_spec fd r) as [->|]; [congruence|]. rewrite Nat.eqb_refl. destruct (Nat.eqb_spec r w) as [->|]; [congruence|]. rewrite Nat.eqb_refl. reflexivity.
Qed.
Lemma out_null_effect : forall y fd t ok t', redirect_out_null y fd t = (ok, t') ->
  pipes t' = pipes t /\ (forall n, n <> fd -> table t' n = table t n) /\ table t' fd = (if ok then Some DevNull else table t fd).
Proof.
  intros y fd t ok t' H. unfold redirect_out_null in H. destruct (f_open y fd); [injection H as <- <-; auto|].
  destruct (new_fd (f_limit y) DevNull t) as [[r t1]|] eqn:E1; [|injection H as <- <-; auto].
  apply new_fd_free in E1. destruct E1 as [F1 ->]. destruct (Nat.eqb_spec r fd) as [->|NR].
  - injection H as <- <-. cbn [set_fd table pipes]. split; [reflexivity|]. split; [|rewrite Nat.eqb_refl; reflexivity].
    intros n Nn. destruct (Nat.eqb_spec n fd); [contradiction|reflexivity].
  - unfold dup2 in H. destruct (f_dup y fd); injection H as <- <-; cbn [set_fd table pipes]; (split; [reflexivity|]); split.
    + intros n Nn. destruct (Nat.eqb_spec n r) as [->|]; [congruence|reflexivity].
    + destruct (Nat.eqb_spec fd r); [congruence|reflexivity].
    + intros n Nn. destruct (Nat.eqb_spec n r) as [->|]; [congruence|]. destruct (Nat.eqb_spec n fd); [contradiction|reflexivity].
    + destruct (Nat.eqb_spec fd r); [congruence|]. rewrite !Nat.eqb_refl. reflexivity.
Qed.

(** What a standard descriptor has to be afterwards: the read end of a pipe created by this call (so that reading
    gives the end of file and writing is refused), /dev/null, or what it was. *)
Definition redirected (m : mode) (fd : nat) (t t' : fds) : Prop :=
  match m with
  | MPipe => exists n, table t' fd = Some (PipeRead n) /\ (pipes t <= n)%nat
  | MNull => table t' fd = Some DevNull
  | MIgnore => table t' fd = table t fd
  end.
Lemma redirect_effect : forall y m fd t ok t', redirect_out y m fd t = (ok, t') ->
  (pipes t <= pipes t')%nat /\ (forall n, n <> fd -> table t' n = table t n) /\
  (ok = true -> match m with MPipe => table t' fd = Some (PipeRead (pipes t)) /\ (pipes t < pipes t')%nat | MNull => table t' fd = Some DevNull | MIgnore => table t' fd = table t fd end) /\ (ok = false -> table t' fd = table t fd).
Proof.
  intros y m fd t ok t' H. destruct m; cbn [redirect_out] in H.
  - injection H as <- <-. repeat split; auto.
  - apply in_pipe_effect in H. destruct H as (P & F & T & L). split; [exact P|]. split; [exact F|]. split; intros ->; [auto|exact T].
  - apply out_null_effect in H. destruct H as (P & F & T). split; [lia|]. split; [exact F|]. split; intros ->; exact T.
Qed.

Definition not_yet (t : fds) : Prop := forall n i, table t n = Some (PipeRead i) \/ table t n = Some (PipeWrite i) -> (i < pipes t)%nat.

(** C43: when pam_modutil_sanitize_helper_fds succeeds, each standard descriptor is redirected as asked for; no
    write end of the pipes made is left open; and, when close_range(2) works, every other descriptor is closed, else
    every one below the limit on open files and below 65536. stdin is redirected to a pipe also when /dev/null is asked for. *)
Theorem helper_descriptors : forall y range rlim m0 m1 m2 t t', not_yet t -> sanitize_fds y range rlim m0 m1 m2 t = (true, t') ->
  redirected (match m0 with MIgnore => MIgnore | _ => MPipe end) 0 t t' /\ redirected m1 1 t t' /\ redirected m2 2 t t' /\
  (forall n i, table t' n = Some (PipeWrite i) -> (i < pipes t)%nat) /\
  (forall n, (2 < n)%nat -> (range = true \/ Z.of_nat n < Z.min 65536 (match rlim with Some m => m | None => 65536 end)) -> table t' n = None) /\
  (forall n, (2 < n)%nat -> table t' n = None \/ table t' n = table t n).
Proof.
  intros y range rlim m0 m1 m2 t t' NY H. unfold sanitize_fds in H.
  assert (E0 : exists ok0 t0, redirect_out y (match m0 with MIgnore => MIgnore | _ => MPipe end) 0 t = (ok0, t0) /\ match m0 with MIgnore => (true, t) | _ => redirect_in_pipe y 0 t end = (ok0, t0)).
  { destruct m0; cbn [redirect_out]; [exists true, t; auto| |]; destruct (redirect_in_pipe y 0 t) as [ok0 t0]; exists ok0, t0; auto. }
  destruct E0 as (ok0 & t0 & E0 & E0'). rewrite E0' in H. clear E0'. set (m0' := match m0 with MIgnore => MIgnore | _ => MPipe end) in *. clearbody m0'.
  destruct ok0; cbn [negb] in H; [|discriminate].
  destruct (redirect_out y m1 1 t0) as [ok1 t1] eqn:E1. destruct ok1; cbn [negb] in H; [|discriminate].
  destruct (match m2 with MIgnore => redirect_out y m2 2 t1 | MPipe => match m1 with MPipe => dup2 (f_dup y 2) 1 2 t1 | _ => redirect_out y m2 2 t1 end | MNull => match m1 with MNull => dup2 (f_dup y 2) 1 2 t1 | _ => redirect_out y m2 2 t1 end end) as [ok2 t2] eqn:E2.
  assert (E2' : (ok2, t2) = (ok2, t2)) by reflexivity.
  assert (H' : (if negb ok2 then (false, t2) else (true, close_fds range rlim t2)) = (true, t')).
  { rewrite <- H. destruct m1, m2; cbv beta iota in E2 |- *; rewrite ?E2; reflexivity. }
  clear H E2'. destruct ok2; cbn [negb] in H'; [|discriminate]. injection H' as <-.
  apply redirect_effect in E0. destruct E0 as (P0 & F0 & T0 & _). specialize (T0 eq_refl).
  apply redirect_effect in E1. destruct E1 as (P1 & F1 & T1 & _). specialize (T1 eq_refl).
  assert (E3 : (pipes t1 <= pipes t2)%nat /\ (forall n, n <> 2%nat -> table t2 n = table t1 n) /\
    match m2 with MPipe => exists n, table t2 2 = Some (PipeRead n) /\ (pipes t0 <= n)%nat | MNull => table t2 2 = Some DevNull | MIgnore => table t2 2 = table t1 2 end).
  { assert (R : redirect_out y m2 2 t1 = (true, t2) -> (pipes t1 <= pipes t2)%nat /\ (forall n, n <> 2%nat -> table t2 n = table t1 n) /\
      match m2 with MPipe => exists n, table t2 2 = Some (PipeRead n) /\ (pipes t0 <= n)%nat | MNull => table t2 2 = Some DevNull | MIgnore => table t2 2 = table t1 2 end).
    { intro R. apply redirect_effect in R. destruct R as (A & B & C & _). specialize (C eq_refl). split; [exact A|]. split; [exact B|]. destruct m2; [exact C| |exact C]. destruct C as [C _]. eexists; split; [exact C|lia]. }
    assert (D : dup2 (f_dup y 2) 1 2 t1 = (true, t2) -> (pipes t1 <= pipes t2)%nat /\ (forall n, n <> 2%nat -> table t2 n = table t1 n) /\ table t2 2 = table t1 1).
    { unfold dup2. destruct (f_dup y 2); intro D; [discriminate|]. injection D as <-. cbn [set_fd table pipes]. split; [lia|]. split; [|reflexivity]. intros n Nn. destruct (Nat.eqb_spec n 2); [contradiction|reflexivity]. }
    destruct m2; [exact (R E2)| |]; destruct m1; try exact (R E2).
    - destruct (D E2) as (A & B & C). split; [exact A|]. split; [exact B|]. rewrite C. destruct T1 as [T1 _]. eexists; split; [exact T1|lia].
    - destruct (D E2) as (A & B & C). split; [exact A|]. split; [exact B|]. rewrite C. exact T1. }
  destruct E3 as (P2 & F2 & T2).
  assert (C012 : forall n, (n <= 2)%nat -> table (close_fds range rlim t2) n = table t2 n).
  { intros n L. cbn [close_fds table]. rewrite (proj2 (Nat.ltb_ge 2 n) L). reflexivity. }
  split.
  { unfold redirected. rewrite C012 by lia. rewrite F2, F1 by lia. destruct m0'; [exact T0| |exact T0]. destruct T0 as [T0 _]. eexists; split; [exact T0|lia]. }
  split.
  { unfold redirected. rewrite C012 by lia. rewrite F2 by lia. destruct m1; [rewrite T1; apply F0; lia| |exact T1]. destruct T1 as [T1 _]. eexists; split; [exact T1|lia]. }
  split.
  { unfold redirected. rewrite C012 by lia. destruct m2; [rewrite T2, F1, F0 by lia; reflexivity| |exact T2]. destruct T2 as (n & T2 & L). eexists; split; [exact T2|lia]. }
  split.
  { intros n i W. cbn [close_fds table] in W. destruct ((2 <? n)%nat && _); [discriminate|].
    assert (W0 : table t n = Some (PipeWrite i)).
    { destruct (Nat.eq_dec n 2) as [->|N2].
      - destruct m2; [|destruct T2 as (n & T2 & _); congruence|congruence]. rewrite T2, F1, F0 in W by lia. exact W.
      - rewrite F2 in W by exact N2. destruct (Nat.eq_dec n 1) as [->|N1].
        + destruct m1; [|destruct T1; congruence|congruence]. rewrite T1, F0 in W by lia. exact W.
        + rewrite F1 in W by exact N1. destruct (Nat.eq_dec n 0) as [->|N0].
          * destruct m0'; [|destruct T0; congruence|congruence]. rewrite T0 in W. exact W.
          * rewrite F0 in W by exact N0. exact W. }
    apply (NY n). auto. }
  split.
  { intros n L R. cbn [close_fds table]. rewrite (proj2 (Nat.ltb_lt 2 n) L). destruct R as [-> |R]; [reflexivity|].
    assert (R' : Z.of_nat n <= highest rlim).
    { unfold highest. destruct rlim as [m|]; [|lia]. destruct (Z.ltb_spec 65535 m); [lia|]. destruct (Z.ltb_spec m 20); lia. }
    rewrite (proj2 (Z.leb_le _ _) R'), orb_true_r. reflexivity. }
  intros n L. cbn [close_fds table]. destruct ((2 <? n)%nat && _); [auto|]. right. rewrite F2, F1, F0 by lia. reflexivity.
Qed.

(** C43: when the call fails no descriptor is closed: each is what it was, or one of 0, 1 that had already been redirected. *)
Theorem helper_descriptors_failure : forall y range rlim m0 m1 m2 t t' n, sanitize_fds y range rlim m0 m1 m2 t = (false, t') -> (1 < n)%nat -> table t' n = table t n.
Proof.
  intros y range rlim m0 m1 m2 t t' n H L. unfold sanitize_fds in H.
  assert (E0 : exists ok0 t0, redirect_out y (match m0 with MIgnore => MIgnore | _ => MPipe end) 0 t = (ok0, t0) /\ match m0 with MIgnore => (true, t) | _ => redirect_in_pipe y 0 t end = (ok0, t0)).
  { destruct m0; cbn [redirect_out]; [exists true, t; auto| |]; destruct (redirect_in_pipe y 0 t) as [ok0 t0]; exists ok0, t0; auto. }
  destruct E0 as (ok0 & t0 & E0 & E0'). rewrite E0' in H. clear E0'.
  apply redirect_effect in E0. destruct E0 as (_ & F0 & _ & _). destruct ok0; cbn [negb] in H; [|injection H as <-; apply F0; lia].
  destruct (redirect_out y m1 1 t0) as [ok1 t1] eqn:E1. apply redirect_effect in E1. destruct E1 as (_ & F1 & _ & _).
  destruct ok1; cbn [negb] in H; [|injection H as <-; rewrite F1, F0 by lia; reflexivity].
  assert (R : forall ok2 t2, redirect_out y m2 2 t1 = (ok2, t2) -> ok2 = false -> table t2 n = table t n).
  { intros ok2 t2 E2 ->. apply redirect_effect in E2. destruct E2 as (_ & F2 & _ & G2). destruct (Nat.eq_dec n 2) as [->|N2]; [rewrite G2 by reflexivity|rewrite F2 by exact N2]; rewrite F1, F0 by lia; reflexivity. }
  assert (D : forall ok2 t2, dup2 (f_dup y 2) 1 2 t1 = (ok2, t2) -> ok2 = false -> table t2 n = table t n).
  { unfold dup2. intros ok2 t2 E2 ->. destruct (f_dup y 2); [|discriminate]. injection E2 as <-. rewrite F1, F0 by lia. reflexivity. }
  destruct (redirect_out y m2 2 t1) as [ok2 t2] eqn:E2, (dup2 (f_dup y 2) 1 2 t1) as [ok3 t3] eqn:E3.
  specialize (R ok2 t2 eq_refl). specialize (D ok3 t3 eq_refl).
  destruct m1, m2; first [destruct ok2; cbn [negb] in H; [discriminate|injection H as <-; apply R; reflexivity] | destruct ok3; cbn [negb] in H; [discriminate|injection H as <-; apply D; reflexivity]].
Qed.

Definition all_works : fsys := mkFsys 1024 (fun _ => false) (fun _ => false) (fun _ => false).
Definition open_seven : fds := mkFds (fun n => if (n <? 7)%nat then Some (Before n) else None) 0.
Example helper_descriptors_example :
  not_yet open_seven /\
  (exists t', sanitize_fds all_works true None MPipe MPipe MNull open_seven = (true, t') /\
    map (table t') (seq 0 8) = [Some (PipeRead 0); Some (PipeRead 1); Some DevNull; None; None; None; None; None]) /\
  (exists t', sanitize_fds all_works false (Some 1024) MIgnore MNull MNull (mkFds (fun n => if (n =? 5)%nat then Some (Before 5) else None) 0) = (true, t') /\
    map (table t') (seq 0 8) = [None; Some DevNull; Some DevNull; None; None; None; None; None]) /\
  (exists t', sanitize_fds (mkFsys 1024 (fun _ => false) (fun _ => true) (fun _ => false)) true None MPipe MNull MIgnore open_seven = (false, t') /\
    map (table t') (seq 0 4) = [Some (PipeRead 0); Some (Before 1); Some (Before 2); Some (Before 3)]).
Proof.
  split. { intros n i. cbn [open_seven table]. destruct (n <? 7)%nat; intros [H|H]; discriminate. }
  split; [|split]; eexists; split; vm_compute; reflexivity.
Qed.

(** C43 is false without close_range(2): a descriptor above the limit stays open although the call succeeds. *)
Theorem all_closed_refuted : exists rlim m0 m1 m2 t t' n, not_yet t /\ sanitize_fds all_works false rlim m0 m1 m2 t = (true, t') /\ (2 < n)%nat /\ table t' n = Some (Before n).
Proof.
  exists (Some 30), MIgnore, MIgnore, MIgnore, (mkFds (fun n => if (n =? 40)%nat then Some (Before 40) else None) 0). eexists _, 40%nat.
  split. { intros n i. cbn [table]. destruct (n =? 40)%nat; intros [H|H]; discriminate. }
  split; [reflexivity|]. split; [lia|]. reflexivity.
Qed.

Print Assumptions local_user_iff_entry.
Print Assumptions no_local_user.
Print Assumptions search_key_first.
Print Assumptions in_group_iff_member.
Print Assumptions unknown_is_no_member.
Print Assumptions member_reported_refuted.
Print Assumptions failed_drop_changes_nothing.
Print Assumptions successful_drop.
Print Assumptions drop_defined.
Print Assumptions regain_defined.
Print Assumptions wrong_order_refused.
Print Assumptions regain_restores.
Print Assumptions never_left_dropped.
Print Assumptions failed_drop_changes_nothing_refuted.
Print Assumptions regain_again_restores_refuted.
Print Assumptions second_drop_refuted.
Print Assumptions helper_descriptors.
Print Assumptions helper_descriptors_failure.
Print Assumptions all_closed_refuted.
