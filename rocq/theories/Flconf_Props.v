(** Theorems about the settings of pam_faillock. *)
From Coq Require Import String Ascii List Arith ZArith Bool Lia.
From Verif Require Import Base Num_Model Str_Model Str_Facts Opt_Model Opt_Facts Flconf_Model.
Import ListNotations.
Local Open Scope Z_scope.

(** ** Lines of the configuration file *)
Definition blanks (s : cstr) : Prop := forallb isspace s = true.
(** What stands before a comment. *)
Definition uncommented (l body : cstr) : Prop := ~ In "#"%char body /\ exists rest, l = (body ++ rest)%list /\ (rest = [] \/ exists r, rest = "#"%char :: r).
(** Between name and value: white space with at most one equals sign. *)
Definition separates (eq : bool) (sep : cstr) : Prop :=
  if eq then exists a b, sep = (a ++ "="%char :: b)%list /\ blanks a /\ blanks b else blanks sep.
(** The line gives the option [name] the value [value]. *)
Definition says (l name value : cstr) : Prop :=
  exists body before sep after eq, uncommented l body /\ body = (before ++ name ++ sep ++ value ++ after)%list /\ blanks before /\ blanks after /\ separates eq sep /\
    (forall c, In c name -> isspace c = false /\ c <> "="%char) /\ (name <> [] \/ eq = true) /\
    (value = [] \/ sep <> [] /\ isspace (hd NUL value) = false /\ isspace (last value NUL) = false /\ (eq = false -> hd NUL value <> "="%char)).

Lemma blanks_app : forall a b, blanks (a ++ b) <-> blanks a /\ blanks b.
Proof. intros a b. unfold blanks. rewrite forallb_app, andb_true_iff. reflexivity. Qed.
Lemma blanks_in : forall a c, blanks a -> In c a -> isspace c = true.
Proof. intros a c B I. unfold blanks in B. rewrite forallb_forall in B. auto. Qed.

Lemma to_value_after : forall b v, blanks b -> (v = [] \/ isspace (hd NUL v) = false) -> to_value true (b ++ v) = v.
Proof.
  intros b v B V. induction b as [|c b IH]; cbn [app].
  - destruct v as [|c v]; [reflexivity|]. cbn [to_value]. rewrite orb_true_r. destruct V as [V|V]; [discriminate|]. cbn [hd] in V. rewrite V. reflexivity.
  - cbn [to_value]. rewrite orb_true_r. unfold blanks in B. cbn [forallb] in B. apply andb_true_iff in B. destruct B as [-> B]. apply IH. exact B.
Qed.
Lemma to_value_before : forall a r, blanks a -> to_value false (a ++ "="%char :: r) = to_value true r.
Proof.
  induction a as [|c a IH]; intros r B; [reflexivity|]. cbn [app to_value]. unfold blanks in B. cbn [forallb] in B. apply andb_true_iff in B. destruct B as [C B].
  destruct (Ascii.eqb_spec c "="%char) as [->|_]; [discriminate C|]. cbn [negb orb]. rewrite C. apply IH. exact B.
Qed.
Lemma to_value_plain : forall a v, blanks a -> (v = [] \/ isspace (hd NUL v) = false /\ hd NUL v <> "="%char) -> to_value false (a ++ v) = v.
Proof.
  induction a as [|c a IH]; intros v B V; cbn [app].
  - destruct v as [|c v]; [reflexivity|]. cbn [to_value]. destruct V as [V|(V & W)]; [discriminate|]. cbn [hd] in V, W.
    destruct (Ascii.eqb_spec c "="%char) as [->|_]; [contradiction|]. cbn [negb orb]. rewrite V. reflexivity.
  - cbn [to_value]. unfold blanks in B. cbn [forallb] in B. apply andb_true_iff in B. destruct B as [C B].
    destruct (Ascii.eqb_spec c "="%char) as [->|_]; [discriminate C|]. cbn [negb orb]. rewrite C. apply IH; assumption.
Qed.
Lemma to_value_true : forall q, exists b, q = (b ++ to_value true q)%list /\ blanks b /\ (to_value true q = [] \/ isspace (hd NUL (to_value true q)) = false).
Proof.
  induction q as [|c q (b & E & B & V)]; [exists []; split; [reflexivity|]; split; [reflexivity|left; reflexivity]|].
  assert (T : to_value true (c :: q) = if isspace c then to_value true q else c :: q) by (cbn [to_value]; rewrite orb_true_r; reflexivity). rewrite T. clear T. destruct (isspace c) eqn:C.
  - exists (c :: b). cbn [app]. split; [congruence|]. split; [unfold blanks in *; cbn [forallb]; rewrite C; exact B|exact V].
  - exists []. split; [reflexivity|]. split; [reflexivity|]. right. exact C.
Qed.
Lemma to_value_false : forall q, exists eq b, q = (b ++ to_value false q)%list /\ separates eq b /\
  (to_value false q = [] \/ isspace (hd NUL (to_value false q)) = false /\ (eq = false -> hd NUL (to_value false q) <> "="%char)).
Proof.
  induction q as [|c q (eq & b & E & B & V)]; [exists false, []; split; [reflexivity|]; split; [reflexivity|left; reflexivity]|]. cbn [to_value]. destruct (Ascii.eqb_spec c "="%char) as [->|N]; cbn [negb orb].
  - destruct (to_value_true q) as (b' & E' & B' & V'). exists true, ("="%char :: b'). cbn [app]. split; [congruence|]. split; [exists [], b'; repeat split; auto|].
    destruct V' as [V'|V']; [left; exact V'|right; split; [exact V'|discriminate]].
  - destruct (isspace c) eqn:C.
    + exists eq, (c :: b). cbn [app]. split; [congruence|]. split; [|exact V]. destruct eq.
      * destruct B as (x & y & -> & X & Y). exists (c :: x), y. split; [reflexivity|]. split; [unfold blanks in *; cbn [forallb]; rewrite C; exact X|exact Y].
      * cbn [separates] in *. unfold blanks in *. cbn [forallb]. rewrite C. exact B.
    + exists false, []. split; [reflexivity|]. split; [reflexivity|]. right. split; [exact C|]. intros _. exact N.
Qed.

Lemma uncommented_body : forall l body, uncommented l body -> match split_at "#"%char l with Some (a, _) => a | None => l end = body.
Proof.
  intros l body (N & rest & -> & [->|(r & ->)]).
  - rewrite app_nil_r. replace (split_at "#"%char body) with (@None (cstr * cstr)); [reflexivity|]. symmetry. apply split_at_none. exact N.
  - replace (split_at "#"%char (body ++ "#"%char :: r)) with (Some (body, r)); [reflexivity|]. symmetry. apply split_at_some. auto.
Qed.
Lemma skip_blanks : forall b t, blanks b -> (t = [] \/ isspace (hd NUL t) = false) -> skip_spaces (b ++ t) = t.
Proof.
  intros b [|c t] B T.
  - rewrite app_nil_r. induction b as [|c b IH]; [reflexivity|]. unfold blanks in B. cbn [forallb] in B. apply andb_true_iff in B. destruct B as [C B]. cbn [skip_spaces]. rewrite C. apply IH. exact B.
  - destruct T as [T|T]; [discriminate|]. apply skip_spaces_app; [exact B|exact T].
Qed.

Lemma name_span : forall name r, (forall c, In c name -> isspace c = false /\ c <> "="%char) -> (r = [] \/ isspace (hd NUL r) = true \/ hd NUL r = "="%char) ->
  span (fun c => negb (isspace c || Ascii.eqb c "="%char)) (name ++ r) = (name, r).
Proof.
  intros name r N R. apply span_spec.
  - apply forallb_forall. intros c I. destruct (N c I) as (A & B). rewrite A. apply Ascii.eqb_neq in B. rewrite B. reflexivity.
  - destruct r as [|c r]; [left; reflexivity|]. right. exists c, r. split; [reflexivity|]. cbn [hd] in R. destruct R as [R|[R|R]]; [discriminate|rewrite R; reflexivity|subst c; reflexivity].
Qed.

Theorem faillock_line : forall l name value, parse_line l = Some (name, value) <-> says l name value.
Proof.
  intros l name value. split.
  - unfold parse_line. set (body := match split_at "#"%char l with Some (a, _) => a | None => l end). intro P.
    assert (U : uncommented l body).
    { unfold body. destruct (split_at "#"%char l) as [[a b]|] eqn:Q.
      - apply split_at_some in Q. destruct Q as (-> & Q). split; [exact Q|]. exists ("#"%char :: b). split; [reflexivity|]. right. eauto.
      - apply split_at_none in Q. split; [exact Q|]. exists []. rewrite app_nil_r. auto. }
    clearbody body. destruct (rtrim_spec body) as (tr & EB & BT & LT). destruct (skip_spaces_split (rtrim body)) as (sp & ES & BS).
    destruct (skip_spaces (rtrim body)) as [|c p] eqn:SP; [discriminate|].
    destruct (span (fun c => negb (isspace c || Ascii.eqb c "="%char)) (c :: p)) as [nm r] eqn:SN. apply span_app in SN. destruct SN as (EN & FN & RN).
    assert (NN : forall c, In c nm -> isspace c = false /\ c <> "="%char).
    { intros x I. rewrite forallb_forall in FN. specialize (FN x I). apply negb_true_iff, orb_false_iff in FN. destruct FN as (A & B). apply Ascii.eqb_neq in B. auto. }
    assert (LA : isspace (last (c :: p) NUL) = false).
    { destruct LT as [LT|LT]; [rewrite LT in ES; destruct sp; discriminate ES|]. rewrite ES in LT. rewrite last_app_ne in LT by discriminate. exact LT. }
    assert (CS : isspace c = false).
    { clear - SP. revert c p SP. generalize (rtrim body). intro t. induction t as [|x t IH]; intros c p H; [discriminate|]. cbn [skip_spaces] in H. destruct (isspace x) eqn:X; [apply (IH c p H)|]. injection H as <- _. exact X. }
    destruct r as [|d q].
    + injection P as <- <-. rewrite app_nil_r in EN. exists body, sp, [], tr, false. split; [exact U|]. cbn [app]. split; [rewrite EB, ES, <- app_assoc, EN; reflexivity|].
      split; [exact BS|]. split; [exact BT|]. split; [reflexivity|]. split; [exact NN|]. split; [left; rewrite <- EN; discriminate|]. left. reflexivity.
    + destruct RN as [RN|(d' & q' & RQ & RN)]; [discriminate|]. injection RQ as <- <-. injection P as <- <-.
      destruct (Ascii.eqb_spec d "="%char) as [->|ND].
      * destruct (to_value_true q) as (b & EQ & BB & VV). exists body, sp, ("="%char :: b), tr, true. split; [exact U|].
        split; [rewrite EB, ES, EN, EQ at 1; rewrite <- !app_assoc; cbn [app]; rewrite <- app_assoc; reflexivity|].
        split; [exact BS|]. split; [exact BT|]. split; [exists [], b; repeat split; auto|]. split; [exact NN|]. split; [right; reflexivity|].
        destruct (to_value true q) as [|v0 v] eqn:TV; [left; reflexivity|]. right. split; [discriminate|]. destruct VV as [VV|VV]; [discriminate|]. split; [exact VV|].
        split; [|discriminate]. rewrite EN in LA. change ("="%char :: q) with (["="%char] ++ q)%list in LA. rewrite EQ, !app_assoc, last_app_ne in LA by discriminate. exact LA.
      * destruct (to_value_false q) as (eq & b & EQ & BB & VV).
        assert (DS : isspace d = true) by (apply negb_false_iff, orb_true_iff in RN; destruct RN as [RN|RN]; [exact RN|discriminate RN]). clear RN.
        exists body, sp, (d :: b), tr, eq. split; [exact U|].
        split; [rewrite EB, ES, EN, EQ at 1; rewrite <- !app_assoc; cbn [app]; rewrite <- app_assoc; reflexivity|].
        split; [exact BS|]. split; [exact BT|]. split.
        { destruct eq; [destruct BB as (x & y & -> & X & Y); exists (d :: x), y; split; [reflexivity|]; split; [unfold blanks in *; cbn [forallb]; rewrite DS; exact X|exact Y]|].
          cbn [separates] in *. unfold blanks in *. cbn [forallb]. rewrite DS. exact BB. }
        split; [exact NN|]. split; [left; intros ->; cbn [app] in EN; injection EN as -> _; congruence|].
        destruct (to_value false q) as [|v0 v] eqn:TV; [left; reflexivity|]. right. split; [discriminate|]. destruct VV as [VV|(VV & VE)]; [discriminate|]. split; [exact VV|].
        split; [|exact VE]. rewrite EN in LA. change (d :: q) with ([d] ++ q)%list in LA. rewrite EQ, !app_assoc, last_app_ne in LA by discriminate. exact LA.
  - intros (body & before & sep & after & eq & U & EB & BB & BA & SE & NN & NE & VV). unfold parse_line. rewrite (uncommented_body l body U). clear U l.
    assert (NS : forall c, In c name -> isspace c = false) by (intros c I; apply NN; exact I).
    (* what is left without the white space around *)
    assert (CORE : exists sep', rtrim body = (before ++ name ++ sep' ++ value)%list /\
      ((sep' = [] /\ value = [] /\ eq = false) \/ (sep' <> [] /\ separates eq sep'))).
    { subst body. assert (V2 : value = [] \/ value <> [] /\ sep <> [] /\ isspace (last value NUL) = false) by (destruct value; [left; reflexivity|right; split; [discriminate|destruct VV as [VV|(V1 & _ & V3 & _)]; [discriminate|auto]]]).
      destruct V2 as [->|(VN & SN & LV)].
      - destruct eq.
        + destruct SE as (a & b & -> & A & B). exists (a ++ ["="%char])%list. split.
          * assert (X : (before ++ name ++ (a ++ "="%char :: b) ++ [] ++ after)%list = ((before ++ name ++ (a ++ ["="%char]) ++ []) ++ (b ++ after))%list) by (rewrite !app_nil_r; cbn [app]; rewrite <- !app_assoc; reflexivity).
            rewrite X. apply rtrim_app; [apply blanks_app; auto|]. right. rewrite app_nil_r, !app_assoc, last_last. reflexivity.
          * right. split; [destruct a; discriminate|]. exists a, []. repeat split; auto.
        + exists []. split; [|left; auto]. cbn [app]. rewrite app_nil_r.
          assert (X : (before ++ name ++ sep ++ after)%list = ((before ++ name) ++ (sep ++ after))%list) by (rewrite <- !app_assoc; reflexivity). rewrite X.
          apply rtrim_app; [apply blanks_app; auto|]. right. destruct NE as [NE|NE]; [|discriminate]. rewrite last_app_ne by exact NE. apply NS. apply last_in. exact NE.
      - exists sep. split; [|right; split; assumption].
        assert (X : (before ++ name ++ sep ++ value ++ after)%list = ((before ++ name ++ sep ++ value) ++ after)%list) by (rewrite <- !app_assoc; reflexivity). rewrite X.
        apply rtrim_app; [exact BA|]. right. rewrite !app_assoc, last_app_ne; [exact LV|exact VN]. }
    clear EB. destruct CORE as (sep' & -> & SC). clear SE body.
    destruct SC as [(-> & -> & ->)|(SN & SE)].
    + cbn [app]. rewrite app_nil_r. destruct NE as [NE|NE]; [|discriminate]. rewrite skip_blanks; [|exact BB|right; destruct name; [contradiction|apply NS; left; reflexivity]].
      destruct name as [|c name]; [contradiction|]. rewrite <- (app_nil_r (c :: name)) at 1. rewrite name_span; [reflexivity|exact NN|left; reflexivity].
    + assert (VH : value = [] \/ isspace (hd NUL value) = false) by (destruct VV as [VV|(_ & VV & _)]; auto).
      assert (VF : eq = false -> value = [] \/ isspace (hd NUL value) = false /\ hd NUL value <> "="%char) by (intro Q; destruct VV as [VV|(_ & V1 & _ & V2)]; auto).
      destruct name as [|c name].
      * (* no name: the line begins with the equals sign *)
        destruct NE as [NE|NE]; [contradiction|]. subst eq. destruct SE as (a & b & -> & A & B). cbn [app].
        assert (X : (before ++ (a ++ "="%char :: b) ++ value)%list = ((before ++ a) ++ "="%char :: b ++ value)%list) by (rewrite <- !app_assoc; reflexivity). rewrite X.
        rewrite skip_blanks; [|apply blanks_app; auto|right; reflexivity].
        change ("="%char :: b ++ value)%list with ([] ++ "="%char :: b ++ value)%list at 1. rewrite name_span; [|intros ? []|right; right; reflexivity].
        rewrite Ascii.eqb_refl, to_value_after by assumption. reflexivity.
      * rewrite skip_blanks; [|exact BB|right; apply NS; left; reflexivity]. cbn [app]. change (c :: name ++ sep' ++ value)%list with ((c :: name) ++ sep' ++ value)%list.
        assert (SPN : forall r, (r = [] \/ isspace (hd NUL r) = true \/ hd NUL r = "="%char) -> span (fun c => negb (isspace c || Ascii.eqb c "="%char)) (c :: name ++ r) = (c :: name, r)) by (intros r R; exact (name_span (c :: name) r NN R)).
        destruct eq.
        -- destruct SE as (a & b & -> & A & B). destruct a as [|x a].
           ++ cbn [app]. rewrite SPN by (right; right; reflexivity). rewrite Ascii.eqb_refl, to_value_after by assumption. reflexivity.
           ++ cbn [app]. rewrite SPN by (right; left; unfold blanks in A; cbn [forallb] in A; apply andb_true_iff in A; apply A).
              unfold blanks in A; cbn [forallb] in A; apply andb_true_iff in A. destruct A as (X & A).
              destruct (Ascii.eqb_spec x "="%char) as [->|_]; [discriminate X|]. rewrite <- app_assoc. cbn [app]. rewrite to_value_before by exact A. rewrite to_value_after by assumption. reflexivity.
        -- destruct sep' as [|x s]; [contradiction|]. cbn [separates] in SE. unfold blanks in SE; cbn [forallb] in SE; apply andb_true_iff in SE. destruct SE as (X & SE).
           cbn [app]. rewrite SPN by (right; left; exact X). destruct (Ascii.eqb_spec x "="%char) as [->|_]; [discriminate X|].
           rewrite to_value_plain; [reflexivity|exact SE|apply VF; reflexivity].
Qed.

(** ** The settings in force *)
Definition setting : Type := (cstr * cstr)%type.
(** A line that getline gave whole but that has a NUL before its newline. *)
Definition broken (l : list ascii) : Prop := cut l <> [] /\ last (cut l) NUL <> c_nl /\ last l NUL = c_nl.
(** The settings of the lines, in order. *)
Inductive reads : list (list ascii) -> list setting -> Prop :=
| reads_none : reads [] []
| reads_other : forall l ls ss, ~ broken l -> (forall n v, ~ says (cut l) n v) -> reads ls ss -> reads (l :: ls) ss
| reads_setting : forall l ls n v ss, ~ broken l -> says (cut l) n v -> reads ls ss -> reads (l :: ls) ((n, v) :: ss).
(** An argument as a setting. *)
Definition arg_says (a : cstr) (s : setting) : Prop := (a = (fst s ++ "="%char :: snd s)%list /\ ~ In "="%char (fst s)) \/ (s = (a, []) /\ ~ In "="%char a).
(** The file: named by the last conf=, or the default one, which need not exist. *)
Definition conf_file (args : list cstr) (f : option cstr) : Prop :=
  match f with
  | Some f => exists a b, args = (a ++ (lit "conf=" ++ f) :: b)%list /\ forall x w, In x b -> x <> (lit "conf=" ++ w)%list
  | None => forall x w, In x args -> x <> (lit "conf=" ++ w)%list
  end.
Definition file_settings (fopen : cstr -> fopened) (f : option cstr) (ss : list setting) : Prop :=
  (exists text, fopen (match f with Some f => f | None => lit "/etc/security/faillock.conf" end) = FText text /\ reads (lines_of text) ss) \/
  (f = None /\ fopen (lit "/etc/security/faillock.conf") = FNone /\ ss = []).
(** [x] is given by the last setting that gives one, or is [before]. *)
Definition latest {S A : Type} (P : S -> A -> Prop) (ss : list S) (before x : A) : Prop :=
  (exists a s b, ss = (a ++ s :: b)%list /\ P s x /\ forall s' y, In s' b -> ~ P s' y) \/ ((forall s y, In s ss -> ~ P s y) /\ x = before).
(** A number at the beginning of the text, as kept in [size] values. *)
Definition numeral (size : Z) (v : cstr) (x : Z) : Prop := exists neg n rest, signed 10 v neg n rest /\ x = ulong neg n mod size.
Definition gives_deny (s : setting) (x : Z) : Prop := fst s = lit "deny" /\ numeral (2 ^ 16) (snd s) x.
Definition gives_time (v : cstr) (x : Z) : Prop := numeral (2 ^ 32) v x /\ x <= 604800.
Definition gives_interval (s : setting) (x : Z) : Prop := fst s = lit "fail_interval" /\ gives_time (snd s) x.
Definition gives_unlock (name : cstr) (s : setting) (x : Z) : Prop := fst s = name /\ ((snd s = lit "never" /\ x = 0) \/ (snd s <> lit "never" /\ gives_time (snd s) x)).
Definition gives_dir (s : setting) (x : option cstr) : Prop := fst s = lit "dir" /\ (exists r, snd s = "/"%char :: r) /\ x = Some (snd s).
Definition gives_admin (s : setting) (x : option cstr) : Prop := fst s = lit "admin_group" /\ x = Some (snd s).
Definition gives_action (a : cstr) (x : action) : Prop := (a = lit "preauth" /\ x = Preauth) \/ (a = lit "authfail" /\ x = Authfail) \/ (a = lit "authsucc" /\ x = Authsucc).
Definition present (name : cstr) (ss : list setting) : Prop := exists v, In (name, v) ss.
(** A copy of the value is needed and cannot be made. *)
Definition no_copy (mem : cstr -> bool) (s : setting) : Prop := mem (snd s) = false /\ ((exists x, gives_dir s x) \/ fst s = lit "admin_group").

Lemma latest_fold : forall {S A T : Type} (P : S -> A -> Prop) (step : T -> S -> T) (val : T -> A) ss,
  (forall t s, In s ss -> P s (val (step t s)) \/ ((forall y, ~ P s y) /\ val (step t s) = val t)) ->
  forall t, latest P ss (val t) (val (fold_left step ss t)).
Proof.
  intros S A T P step val ss. induction ss as [|s ss IH] using rev_ind; intros H t; [right; split; [intros ? ? []|reflexivity]|].
  specialize (IH (fun t s I => H t s (in_or_app _ _ _ (or_introl I)))).
  assert (IS : In s (ss ++ [s])) by (apply in_or_app; right; left; reflexivity).
  rewrite fold_left_app. cbn [fold_left]. destruct (H (fold_left step ss t) s IS) as [X|(X & ->)].
  - left. exists ss, s, []. split; [reflexivity|]. split; [exact X|]. intros ? ? [].
  - destruct (IH t) as [(a & s0 & b & -> & Y & Z1)|(Y & ->)].
    + left. exists a, s0, (b ++ [s])%list. split; [rewrite <- app_assoc; reflexivity|]. split; [exact Y|]. intros s' y I. apply in_app_or in I. destruct I as [I|[<-|[]]]; [apply Z1; exact I|apply X].
    + right. split; [|reflexivity]. intros s' y I. apply in_app_or in I. destruct I as [I|[<-|[]]]; [apply Y; exact I|apply X].
Qed.
Lemma flag_fold : forall {S T : Type} (P : S -> Prop) (step : T -> S -> T) (val : T -> bool),
  (forall t s, val (step t s) = true <-> P s \/ val t = true) -> forall ss t, val (fold_left step ss t) = true <-> (exists s, In s ss /\ P s) \/ val t = true.
Proof.
  intros S T P step val H ss. induction ss as [|s ss IH]; intro t; cbn [fold_left].
  - split; [auto|]. intros [(s & [] & _)|X]; exact X.
  - rewrite IH, H. split.
    + intros [(x & I & X)|[X|X]]; [left; exists x; split; [right; exact I|exact X]|left; exists s; split; [left; reflexivity|exact X]|right; exact X].
    + intros [(x & [->|I] & X)|X]; [right; left; exact X|left; exists x; auto|auto].
Qed.

Lemma scan_unsigned_some : forall size v x, scan_unsigned size v = Some x <-> numeral size v x.
Proof.
  intros size v x. unfold scan_unsigned, numeral. destruct (strtoul 10 v) as [u [rest|]] eqn:Q.
  - apply strtoul_some in Q; [|lia]. destruct Q as (neg & n & G & ->). split.
    + intro X. injection X as <-. exists neg, n, rest. auto.
    + intros (neg' & n' & r' & G' & ->). destruct (signed_unique 10 v neg n rest neg' n' r' ltac:(lia) G G') as (-> & -> & _). reflexivity.
  - apply strtoul_none in Q; [|lia]. destruct Q as (_ & Q). split; [discriminate|]. intros (neg & n & rest & G & _). exfalso. exact (Q _ _ _ G).
Qed.
Lemma scan_time_some : forall v x, scan_time v = Some x <-> gives_time v x.
Proof.
  intros v x. unfold scan_time, gives_time, max_interval. change (2 ^ 32) with 4294967296. destruct (scan_unsigned 4294967296 v) as [t|] eqn:Q.
  - pose proof (proj1 (scan_unsigned_some _ _ _) Q) as N. destruct (Z.ltb_spec 604800 t).
    + split; [discriminate|]. intros (M & L). apply scan_unsigned_some in M. rewrite Q in M. injection M as ->. lia.
    + split; [intro X; injection X as <-; auto|]. intros (M & _). apply scan_unsigned_some in M. congruence.
  - split; [discriminate|]. intros (M & _). apply scan_unsigned_some in M. congruence.
Qed.
Lemma scan_unlock_some : forall v x, scan_unlock v = Some x <-> ((v = lit "never" /\ x = 0) \/ (v <> lit "never" /\ gives_time v x)).
Proof.
  intros v x. unfold scan_unlock. destruct (streq v (lit "never")) eqn:E.
  - apply streq_eq in E. split; [intro X; injection X as <-; auto|]. intros [(_ & ->)|(X & _)]; [reflexivity|contradiction].
  - assert (N : v <> lit "never") by (intros ->; rewrite streq_refl in E; discriminate). rewrite scan_time_some. split; [auto|]. intros [(X & _)|(_ & X)]; [contradiction|exact X].
Qed.

(** A setting, and nothing for an argument that chooses the action. *)
Definition apply_setting (mem : cstr -> bool) (o : settings) (s : setting) : settings := set_conf_opt mem o (fst s) (snd s).
Lemma set_names : forall name, (forall k, In k [lit "dir"; lit "deny"; lit "fail_interval"; lit "unlock_time"; lit "root_unlock_time"; lit "admin_group"; lit "even_deny_root"; lit "audit"; lit "silent"; lit "no_log_info"; lit "local_users_only"; lit "nodelay"] -> name <> k) ->
  forall mem o value, set_conf_opt mem o name value = o.
Proof.
  intros name N mem o value. assert (NE : forall k, In k [lit "dir"; lit "deny"; lit "fail_interval"; lit "unlock_time"; lit "root_unlock_time"; lit "admin_group"; lit "even_deny_root"; lit "audit"; lit "silent"; lit "no_log_info"; lit "local_users_only"; lit "nodelay"] -> streq name k = false).
  { intros k I. destruct (streq name k) eqn:E; [apply streq_eq in E; exfalso; exact (N k I E)|reflexivity]. }
  unfold set_conf_opt. destruct o as [ac dn iv ul ru di ad dr au si nl lo nd fa]. rewrite !NE by (cbn; auto 20). reflexivity.
Qed.

Lemma streq_ne : forall a b, streq a b = false -> a <> b.
Proof. intros a b E ->. rewrite streq_refl in E. discriminate. Qed.

Lemma deny_step : forall mem o s, gives_deny s (s_deny (apply_setting mem o s)) \/ ((forall y, ~ gives_deny s y) /\ s_deny (apply_setting mem o s) = s_deny o).
Proof.
  intros mem o [n v]. unfold gives_deny. cbn [fst snd]. destruct (streq n (lit "deny")) eqn:E.
  - apply streq_eq in E. subst n. unfold apply_setting, set_conf_opt. destruct o as [ac dn iv ul ru di ad dr au si nl lo nd fa]. cbn [fst snd]. change (streq (lit "deny") (lit "dir")) with false. rewrite streq_refl.
    destruct (scan_unsigned 65536 v) as [x|] eqn:Q; cbn [s_deny]; [left; split; [reflexivity|apply scan_unsigned_some; exact Q]|].
    right. split; [|reflexivity]. intros y (_ & Y). apply scan_unsigned_some in Y. change (2 ^ 16) with 65536 in Y. congruence.
  - right. split; [intros y (Y & _); apply streq_ne in E; contradiction|]. unfold apply_setting, set_conf_opt. destruct o as [ac dn iv ul ru di ad dr au si nl lo nd fa]. cbn [fst snd]. rewrite E.
    repeat match goal with |- context [match ?b with _ => _ end] => destruct b end; reflexivity.
Qed.
Lemma interval_step : forall mem o s, gives_interval s (s_interval (apply_setting mem o s)) \/ ((forall y, ~ gives_interval s y) /\ s_interval (apply_setting mem o s) = s_interval o).
Proof.
  intros mem o [n v]. unfold gives_interval. cbn [fst snd]. destruct (streq n (lit "fail_interval")) eqn:E.
  - apply streq_eq in E. subst n. unfold apply_setting, set_conf_opt. destruct o as [ac dn iv ul ru di ad dr au si nl lo nd fa]. cbn [fst snd]. change (streq (lit "fail_interval") (lit "dir")) with false. change (streq (lit "fail_interval") (lit "deny")) with false. rewrite streq_refl.
    destruct (scan_time v) as [x|] eqn:Q; cbn [s_interval]; [left; split; [reflexivity|apply scan_time_some; exact Q]|].
    right. split; [|reflexivity]. intros y (_ & Y). apply scan_time_some in Y. congruence.
  - right. split; [intros y (Y & _); apply streq_ne in E; contradiction|]. unfold apply_setting, set_conf_opt. destruct o as [ac dn iv ul ru di ad dr au si nl lo nd fa]. cbn [fst snd]. rewrite E.
    repeat match goal with |- context [match ?b with _ => _ end] => destruct b end; reflexivity.
Qed.
Lemma unlock_step : forall mem o s, gives_unlock (lit "unlock_time") s (s_unlock (apply_setting mem o s)) \/ ((forall y, ~ gives_unlock (lit "unlock_time") s y) /\ s_unlock (apply_setting mem o s) = s_unlock o).
Proof.
  intros mem o [n v]. unfold gives_unlock. cbn [fst snd]. destruct (streq n (lit "unlock_time")) eqn:E.
  - apply streq_eq in E. subst n. unfold apply_setting, set_conf_opt. destruct o as [ac dn iv ul ru di ad dr au si nl lo nd fa]. cbn [fst snd].
    change (streq (lit "unlock_time") (lit "dir")) with false. change (streq (lit "unlock_time") (lit "deny")) with false. change (streq (lit "unlock_time") (lit "fail_interval")) with false. rewrite streq_refl.
    destruct (scan_unlock v) as [x|] eqn:Q; cbn [s_unlock]; [left; split; [reflexivity|apply scan_unlock_some; exact Q]|].
    right. split; [|reflexivity]. intros y (_ & Y). apply scan_unlock_some in Y. congruence.
  - right. split; [intros y (Y & _); apply streq_ne in E; contradiction|]. unfold apply_setting, set_conf_opt. destruct o as [ac dn iv ul ru di ad dr au si nl lo nd fa]. cbn [fst snd]. rewrite E.
    repeat match goal with |- context [match ?b with _ => _ end] => destruct b end; reflexivity.
Qed.
Lemma root_step : forall mem o s, gives_unlock (lit "root_unlock_time") s (s_root_unlock (apply_setting mem o s)) \/ ((forall y, ~ gives_unlock (lit "root_unlock_time") s y) /\ s_root_unlock (apply_setting mem o s) = s_root_unlock o).
Proof.
  intros mem o [n v]. unfold gives_unlock. cbn [fst snd]. destruct (streq n (lit "root_unlock_time")) eqn:E.
  - apply streq_eq in E. subst n. unfold apply_setting, set_conf_opt. destruct o as [ac dn iv ul ru di ad dr au si nl lo nd fa]. cbn [fst snd].
    change (streq (lit "root_unlock_time") (lit "dir")) with false. change (streq (lit "root_unlock_time") (lit "deny")) with false. change (streq (lit "root_unlock_time") (lit "fail_interval")) with false. change (streq (lit "root_unlock_time") (lit "unlock_time")) with false. rewrite streq_refl.
    destruct (scan_unlock v) as [x|] eqn:Q; cbn [s_root_unlock]; [left; split; [reflexivity|apply scan_unlock_some; exact Q]|].
    right. split; [|reflexivity]. intros y (_ & Y). apply scan_unlock_some in Y. congruence.
  - right. split; [intros y (Y & _); apply streq_ne in E; contradiction|]. unfold apply_setting, set_conf_opt. destruct o as [ac dn iv ul ru di ad dr au si nl lo nd fa]. cbn [fst snd]. rewrite E.
    repeat match goal with |- context [match ?b with _ => _ end] => destruct b end; reflexivity.
Qed.
Lemma dir_step : forall mem o s, ~ no_copy mem s -> gives_dir s (s_dir (apply_setting mem o s)) \/ ((forall y, ~ gives_dir s y) /\ s_dir (apply_setting mem o s) = s_dir o).
Proof.
  intros mem o [n v] NC. destruct (streq n (lit "dir")) eqn:E.
  - apply streq_eq in E. subst n. unfold apply_setting, set_conf_opt, gives_dir. destruct o as [ac dn iv ul ru di ad dr au si nl lo nd fa]. cbn [fst snd]. rewrite streq_refl.
    destruct v as [|c v]; [right; split; [intros y (_ & (r & Y) & _); discriminate|reflexivity]|]. destruct (Ascii.eqb_spec c "/"%char) as [->|N].
    + left. split; [reflexivity|]. split; [eexists; reflexivity|]. cbn [s_dir]. destruct (mem ("/"%char :: v)) eqn:M; [reflexivity|]. exfalso. apply NC. split; [exact M|]. left. exists (Some ("/"%char :: v)). split; [reflexivity|]. split; [eexists; reflexivity|reflexivity].
    + right. split; [intros y (_ & (r & Y) & _); injection Y as -> _; contradiction|reflexivity].
  - right. split; [intros y (Y & _); apply streq_ne in E; contradiction|]. unfold apply_setting, set_conf_opt. destruct o as [ac dn iv ul ru di ad dr au si nl lo nd fa]. cbn [fst snd]. rewrite E.
    repeat match goal with |- context [match ?b with _ => _ end] => destruct b end; reflexivity.
Qed.
Lemma admin_step : forall mem o s, ~ no_copy mem s -> gives_admin s (s_admin (apply_setting mem o s)) \/ ((forall y, ~ gives_admin s y) /\ s_admin (apply_setting mem o s) = s_admin o).
Proof.
  intros mem o [n v] NC. destruct (streq n (lit "admin_group")) eqn:E.
  - apply streq_eq in E. subst n. left. split; [reflexivity|]. unfold apply_setting, set_conf_opt. destruct o as [ac dn iv ul ru di ad dr au si nl lo nd fa]. cbn [fst snd].
    change (s_admin (mkS ac dn iv ul ru di (if mem v then Some v else None) dr au si nl lo nd (fa || negb (mem v))) = Some v). cbn [s_admin]. destruct (mem v) eqn:M; [reflexivity|]. exfalso. apply NC. split; [exact M|right; reflexivity].
  - right. split; [intros y (Y & _); apply streq_ne in E; contradiction|]. unfold apply_setting, set_conf_opt. destruct o as [ac dn iv ul ru di ad dr au si nl lo nd fa]. cbn [fst snd]. rewrite E.
    repeat match goal with |- context [match ?b with _ => _ end] => destruct b end; reflexivity.
Qed.
Lemma fatal_step : forall mem o s, s_fatal (apply_setting mem o s) = true <-> no_copy mem s \/ s_fatal o = true.
Proof.
  intros mem o [n v]. unfold no_copy. cbn [fst snd]. destruct (streq n (lit "dir")) eqn:E; [|destruct (streq n (lit "admin_group")) eqn:E2].
  - apply streq_eq in E. subst n. unfold apply_setting, set_conf_opt, gives_dir. destruct o as [ac dn iv ul ru di ad dr au si nl lo nd fa]. cbn [fst snd]. rewrite streq_refl.
    destruct v as [|c v]; [split; [auto|intros [(_ & [(x & _ & (r & X) & _)|X])|X]; [discriminate|discriminate|exact X]]|]. destruct (Ascii.eqb_spec c "/"%char) as [->|N].
    + cbn [s_fatal]. rewrite orb_true_iff, negb_true_iff. split; [|intros [(M & _)|X]; auto]. intros [X|M]; [auto|]. left. split; [exact M|]. left. exists (Some ("/"%char :: v)). split; [reflexivity|]. split; [eexists; reflexivity|reflexivity].
    + split; [auto|]. intros [(_ & [(x & _ & (r & X) & _)|X])|X]; [injection X as -> _; contradiction|discriminate|exact X].
  - apply streq_eq in E2. subst n. unfold apply_setting, set_conf_opt. destruct o as [ac dn iv ul ru di ad dr au si nl lo nd fa]. cbn [fst snd].
    change (s_fatal (mkS ac dn iv ul ru di (if mem v then Some v else None) dr au si nl lo nd (fa || negb (mem v))) = true <-> mem v = false /\ ((exists x, gives_dir (lit "admin_group", v) x) \/ lit "admin_group" = lit "admin_group") \/ fa = true).
    cbn [s_fatal]. rewrite orb_true_iff, negb_true_iff. split; [|intros [(M & _)|X]; auto]. intros [X|M]; [auto|]. left. split; [exact M|right; reflexivity].
  - assert (R : s_fatal (apply_setting mem o (n, v)) = s_fatal o).
    { unfold apply_setting, set_conf_opt. destruct o as [ac dn iv ul ru di ad dr au si nl lo nd fa]. cbn [fst snd]. rewrite E, E2. repeat match goal with |- context [match ?b with _ => _ end] => destruct b end; reflexivity. }
    rewrite R. split; [auto|]. apply streq_ne in E. apply streq_ne in E2. intros [(_ & [(x & X & _)|X])|X]; [contradiction|contradiction|exact X].
Qed.

(** Flags: [name] sets [val]. *)
Ltac flag_step val name :=
  intros mem o [n v]; cbn [fst]; destruct (streq n name) eqn:E;
  [apply streq_eq in E; subst n; split; [left; reflexivity|intros _; destruct o; reflexivity]
  |assert (R : val (apply_setting mem o (n, v)) = val o)
     by (unfold apply_setting, set_conf_opt; destruct o as [ac dn iv ul ru di ad dr au si nl lo nd fa]; cbn [fst snd]; rewrite E; repeat match goal with |- context [match ?b with _ => _ end] => destruct b end; reflexivity);
   rewrite R; apply streq_ne in E; split; [right; assumption|intros [?|?]; [contradiction|assumption]]].
Lemma deny_root_step : forall mem o s, s_deny_root (apply_setting mem o s) = true <-> fst s = lit "even_deny_root" \/ s_deny_root o = true.
Proof. flag_step s_deny_root (lit "even_deny_root"). Qed.
Lemma audit_step : forall mem o s, s_audit (apply_setting mem o s) = true <-> fst s = lit "audit" \/ s_audit o = true.
Proof. flag_step s_audit (lit "audit"). Qed.
Lemma silent_step : forall mem o s, s_silent (apply_setting mem o s) = true <-> fst s = lit "silent" \/ s_silent o = true.
Proof. flag_step s_silent (lit "silent"). Qed.
Lemma nolog_step : forall mem o s, s_nolog (apply_setting mem o s) = true <-> fst s = lit "no_log_info" \/ s_nolog o = true.
Proof. flag_step s_nolog (lit "no_log_info"). Qed.
Lemma local_step : forall mem o s, s_local (apply_setting mem o s) = true <-> fst s = lit "local_users_only" \/ s_local o = true.
Proof. flag_step s_local (lit "local_users_only"). Qed.
Lemma nodelay_step : forall mem o s, s_nodelay (apply_setting mem o s) = true <-> fst s = lit "nodelay" \/ s_nodelay o = true.
Proof. flag_step s_nodelay (lit "nodelay"). Qed.

(** ** The file and the arguments *)
Definition act (x : action) (o : settings) : settings :=
  mkS x (s_deny o) (s_interval o) (s_unlock o) (s_root_unlock o) (s_dir o) (s_admin o) (s_deny_root o) (s_audit o) (s_silent o) (s_nolog o) (s_local o) (s_nodelay o) (s_fatal o).
Definition act_step (x : action) (a : cstr) : action :=
  if streq a (lit "preauth") then Preauth else if streq a (lit "authfail") then Authfail else if streq a (lit "authsucc") then Authsucc else x.

Lemma act_apply : forall mem x o s, apply_setting mem (act x o) s = act x (apply_setting mem o s).
Proof.
  intros mem x o [n v]. unfold apply_setting, set_conf_opt, act. destruct o as [ac dn iv ul ru di ad dr au si nl lo nd fa]. cbn [fst snd s_deny s_interval s_unlock s_root_unlock s_dir s_admin s_deny_root s_audit s_silent s_nolog s_local s_nodelay s_fatal].
  repeat match goal with |- context [match ?b with _ => _ end] => destruct b end; reflexivity.
Qed.
Lemma act_fold : forall mem x ss o, fold_left (apply_setting mem) ss (act x o) = act x (fold_left (apply_setting mem) ss o).
Proof. intros mem x ss. induction ss as [|s ss IH]; intro o; [reflexivity|]. cbn [fold_left]. rewrite act_apply. apply IH. Qed.
Lemma act_same : forall o, act (s_action o) o = o.
Proof. intros []; reflexivity. Qed.
Lemma apply_keeps_action : forall mem o s, s_action (apply_setting mem o s) = s_action o.
Proof.
  intros mem o [n v]. unfold apply_setting, set_conf_opt. destruct o as [ac dn iv ul ru di ad dr au si nl lo nd fa]. cbn [fst snd].
  repeat match goal with |- context [match ?b with _ => _ end] => destruct b end; reflexivity.
Qed.

Lemma parse_arg_says : forall a s, arg_says a s <-> parse_arg a = s.
Proof.
  intros a [n v]. unfold arg_says, parse_arg. cbn [fst snd]. destruct (split_at "="%char a) as [[x y]|] eqn:E.
  - apply split_at_some in E. destruct E as (-> & N). split.
    + intros [(Q & M)|(_ & M)]; [|exfalso; apply M; apply in_or_app; right; left; reflexivity].
      assert (E1 : split_at "="%char (x ++ "="%char :: y) = Some (x, y)) by (apply split_at_some; auto). rewrite Q in E1.
      assert (E2 : split_at "="%char (n ++ "="%char :: v) = Some (n, v)) by (apply split_at_some; auto). congruence.
    + intro Q. injection Q as <- <-. left. auto.
  - apply split_at_none in E. split.
    + intros [(-> & _)|(Q & _)]; [exfalso; apply E; apply in_or_app; right; left; reflexivity|congruence].
    + intro Q. injection Q as <- <-. right. auto.
Qed.
Lemma arg_conf : forall mem o f, apply_setting mem o (parse_arg (lit "conf=" ++ f)) = o.
Proof.
  intros mem o f. assert (P : parse_arg (lit "conf=" ++ f) = (lit "conf", f)) by reflexivity. rewrite P. unfold apply_setting. cbn [fst snd].
  apply set_names. intros k I. cbn in I. repeat (destruct I as [<-|I]; [discriminate|]). destruct I.
Qed.

Lemma take_args_fold : forall mem skip args i o,
  (forall k a, skip = Some k -> (i <= k)%nat -> nth_error args (k - i) = Some a -> exists f, a = (lit "conf=" ++ f)%list) ->
  take_args mem skip i args o = act (fold_left act_step args (s_action o)) (fold_left (apply_setting mem) (map parse_arg args) o).
Proof.
  intros mem skip. induction args as [|a args IH]; intros i o H; [cbn; symmetry; apply act_same|].
  cbn [take_args map fold_left]. fold (act Preauth o) (act Authfail o) (act Authsucc o).
  assert (H' : forall k a', skip = Some k -> (Datatypes.S i <= k)%nat -> nth_error args (k - Datatypes.S i) = Some a' -> exists f, a' = (lit "conf=" ++ f)%list).
  { intros k a' K L Q. apply (H k a' K); [lia|]. replace (k - i)%nat with (Datatypes.S (k - Datatypes.S i)) by lia. exact Q. }
  rewrite IH by exact H'. clear IH H'.
  assert (UN : forall m : cstr, In m [lit "preauth"; lit "authfail"; lit "authsucc"] -> apply_setting mem o (parse_arg m) = o).
  { intros m I. cbn [In] in I. destruct I as [<-|[<-|[<-|[]]]]; (unfold apply_setting; apply set_names; intros k I; cbn in I; repeat (destruct I as [<-|I]; [discriminate|]); destruct I). }
  destruct (match skip with Some k => Nat.eqb i k | None => false end) eqn:SK.
  - destruct skip as [k|]; [|discriminate]. apply Nat.eqb_eq in SK. subst k. destruct (H i a eq_refl (le_n i)) as (f & ->); [rewrite Nat.sub_diag; reflexivity|].
    rewrite arg_conf. replace (act_step (s_action o) (lit "conf=" ++ f)) with (s_action o) by reflexivity. reflexivity.
  - destruct (streq a (lit "preauth")) eqn:E1; [apply streq_eq in E1; subst a|destruct (streq a (lit "authfail")) eqn:E2; [apply streq_eq in E2; subst a|destruct (streq a (lit "authsucc")) eqn:E3; [apply streq_eq in E3; subst a|]]].
    + rewrite UN by (left; reflexivity). rewrite act_fold. reflexivity.
    + rewrite UN by (right; left; reflexivity). rewrite act_fold. reflexivity.
    + rewrite UN by (right; right; left; reflexivity). rewrite act_fold. reflexivity.
    + destruct (parse_arg a) as [n v]. change (set_conf_opt mem o n v) with (apply_setting mem o (n, v)). rewrite apply_keeps_action. unfold act_step at 3. rewrite E1, E2, E3. reflexivity.
Qed.

Lemma last_conf_spec : forall args i found, 
  match last_conf i args found with
  | Some (k, f) => ((i <= k)%nat /\ nth_error args (k - i) = Some (lit "conf=" ++ f)%list /\ exists a b, args = (a ++ (lit "conf=" ++ f) :: b)%list /\ forall x w, In x b -> x <> (lit "conf=" ++ w)%list) \/
                   (found = Some (k, f) /\ forall x w, In x args -> x <> (lit "conf=" ++ w)%list)
  | None => found = None /\ forall x w, In x args -> x <> (lit "conf=" ++ w)%list
  end.
Proof.
  induction args as [|a args IH]; intros i found; cbn [last_conf].
  - destruct found as [[k f]|]; [right; split; [reflexivity|intros ? ? []]|split; [reflexivity|intros ? ? []]].
  - specialize (IH (Datatypes.S i) (match skip_prefix (lit "conf=") a with Some f => Some (i, f) | None => found end)).
    destruct (last_conf (Datatypes.S i) args (match skip_prefix (lit "conf=") a with Some f => Some (i, f) | None => found end)) as [[k f]|].
    + destruct IH as [(L & N & a0 & b & -> & B)|(F & N)].
      * left. split; [lia|]. split; [replace (k - i)%nat with (Datatypes.S (k - Datatypes.S i)) by lia; exact N|]. exists (a :: a0), b. auto.
      * destruct (skip_prefix (lit "conf=") a) as [g|] eqn:SP.
        -- injection F as <- <-. apply skip_prefix_some in SP. subst a. left. split; [lia|]. split; [rewrite Nat.sub_diag; reflexivity|]. exists [], args. auto.
        -- right. split; [exact F|]. intros x w [<-|I]; [|apply N; exact I]. intros ->. rewrite skip_prefix_app in SP. discriminate.
    + destruct IH as (F & N). destruct (skip_prefix (lit "conf=") a) as [g|] eqn:SP; [discriminate|]. split; [exact F|]. intros x w [<-|I]; [|apply N; exact I]. intros ->. rewrite skip_prefix_app in SP. discriminate.
Qed.

Lemma read_lines_iff : forall mem ls o o', read_lines mem ls o = Some o' <-> exists ss, reads ls ss /\ o' = fold_left (apply_setting mem) ss o.
Proof.
  intros mem. induction ls as [|l ls IH]; intros o o'; cbn [read_lines].
  - split; [intro Q; injection Q as <-; exists []; split; [constructor|reflexivity]|]. intros (ss & R & ->). inversion R. reflexivity.
  - assert (BR : broken l <-> cut l <> [] /\ negb (Ascii.eqb (last (cut l) NUL) c_nl) && Ascii.eqb (last l NUL) c_nl = true).
    { unfold broken. rewrite andb_true_iff, negb_true_iff, Ascii.eqb_neq, Ascii.eqb_eq. tauto. }
    destruct (cut l) as [|c s] eqn:C.
    + rewrite IH. assert (NS : forall n v, ~ says (cut l) n v) by (intros n v X; apply faillock_line in X; rewrite C in X; discriminate X).
      assert (NB : ~ broken l) by (rewrite BR; intros (X & _); apply X; reflexivity).
      split; intros (ss & R & ->); exists ss; (split; [|reflexivity]).
      * apply reads_other; assumption.
      * inversion R as [|? ? ? _ _ R1|? ? n v ? _ X R1]; subst; [exact R1|exfalso; exact (NS _ _ X)].
    + destruct (negb (Ascii.eqb (last (c :: s) NUL) c_nl) && Ascii.eqb (last l NUL) c_nl) eqn:B.
      * split; [discriminate|]. intros (ss & R & _). exfalso. assert (X : broken l) by (apply BR; split; [discriminate|reflexivity]). inversion R; contradiction.
      * assert (NB : ~ broken l) by (rewrite BR; intros (_ & X); discriminate X). rewrite <- C. rewrite IH. destruct (parse_line (cut l)) as [[n v]|] eqn:P.
        -- apply faillock_line in P. split; intros (ss & R & ->).
           ++ exists ((n, v) :: ss). split; [apply reads_setting; assumption|reflexivity].
           ++ inversion R as [|? ? ? _ X R1|? ? n' v' ? _ X R1]; subst; [exfalso; exact (X _ _ P)|]. apply faillock_line in X. apply faillock_line in P. rewrite P in X. injection X as -> ->.
              eexists. split; [exact R1|reflexivity].
        -- assert (NS : forall n v, ~ says (cut l) n v) by (intros n v X; apply faillock_line in X; congruence). split; intros (ss & R & ->).
           ++ exists ss. split; [apply reads_other; assumption|reflexivity].
           ++ inversion R as [|? ? ? _ _ R1|? ? n v ? _ X R1]; subst; [exists ss; auto|exfalso; exact (NS _ _ X)].
Qed.

Lemma action_step : forall x a, gives_action a (act_step x a) \/ ((forall y, ~ gives_action a y) /\ act_step x a = x).
Proof.
  intros x a. unfold act_step, gives_action. destruct (streq a (lit "preauth")) eqn:E1; [apply streq_eq in E1; auto|]. destruct (streq a (lit "authfail")) eqn:E2; [apply streq_eq in E2; auto|].
  destruct (streq a (lit "authsucc")) eqn:E3; [apply streq_eq in E3; auto 6|]. right. split; [|reflexivity]. intros y [(X & _)|[(X & _)|(X & _)]]; apply streq_ne in E1; apply streq_ne in E2; apply streq_ne in E3; contradiction.
Qed.

Lemma conf_unique : forall args f g, conf_file args f -> conf_file args g -> f = g.
Proof.
  intros args f g F G. assert (X : forall a f b, (forall x w, In x b -> x <> (lit "conf=" ++ w)%list) -> option_map snd (last_conf 0 (a ++ (lit "conf=" ++ f) :: b) None) = Some f).
  { clear. intros a f b B. assert (Q : forall i k, last_conf i b k = k).
    { intros i k. revert i k. induction b as [|x b IH]; intros i k; [reflexivity|]. cbn [last_conf]. destruct (skip_prefix (lit "conf=") x) as [w|] eqn:P; [apply skip_prefix_some in P; exfalso; exact (B x w (or_introl eq_refl) P)|]. apply IH. intros y w I. apply B. right. exact I. }
    generalize 0%nat, (@None (nat * cstr)). induction a as [|x a IH]; intros i k; cbn [app last_conf]; [rewrite Q, skip_prefix_app; reflexivity|]. apply IH. }
  destruct f as [f|], g as [g|]; cbn [conf_file] in *.
  - destruct F as (a & b & -> & B). destruct G as (a' & b' & E & B'). pose proof (X a f b B) as Y. rewrite E, (X a' g b' B') in Y. congruence.
  - destruct F as (a & b & -> & B). exfalso. apply (G (lit "conf=" ++ f)%list f); [apply in_or_app; right; left; reflexivity|reflexivity].
  - destruct G as (a & b & -> & B). exfalso. apply (F (lit "conf=" ++ g)%list g); [apply in_or_app; right; left; reflexivity|reflexivity].
  - reflexivity.
Qed.
Lemma reads_unique : forall ls ss ss', reads ls ss -> reads ls ss' -> ss = ss'.
Proof.
  intros ls ss ss' R. revert ss'. induction R as [|l ls ss NB NS R IH|l ls n v ss NB S1 R IH]; intros ss' R'; inversion R' as [|? ? ? _ NS' R1|? ? n' v' ? _ S' R1]; subst.
  - reflexivity.
  - apply IH; exact R1.
  - exfalso. exact (NS _ _ S').
  - exfalso. exact (NS' _ _ S1).
  - apply faillock_line in S1. apply faillock_line in S'. rewrite S1 in S'. injection S' as <- <-. f_equal. apply IH. exact R1.
Qed.
Lemma forall2_args : forall args ss, Forall2 arg_says args ss <-> ss = map parse_arg args.
Proof.
  induction args as [|a args IH]; intro ss; [split; [intro F; inversion F; reflexivity|intros ->; constructor]|]. split.
  - intro F. inversion F as [|? s ? ss' A F']; subst. apply parse_arg_says in A. apply IH in F'. cbn [map]. rewrite A, F'. reflexivity.
  - intros ->. constructor; [apply parse_arg_says; reflexivity|apply IH; reflexivity].
Qed.

(** The call, in terms of the settings found. *)
Lemma args_parse_run : forall mem fopen silent args,
  (exists f ss as_, conf_file args f /\ file_settings fopen f ss /\ Forall2 arg_says args as_ /\
     let o := fold_left (apply_setting mem) (ss ++ as_) defaults in
     args_parse mem fopen silent args = (if s_fatal o then PAM_BUF_ERR else PAM_SUCCESS,
       mkS (fold_left act_step args Preauth) (s_deny o) (s_interval o) (s_unlock o) (if s_root_unlock o =? max_interval + 1 then s_unlock o else s_root_unlock o)
         (s_dir o) (s_admin o) (s_deny_root o) (s_audit o) (s_silent o || silent) (s_nolog o) (s_local o) (s_nodelay o) (s_fatal o))) \/
  (args_parse mem fopen silent args = (PAM_SERVICE_ERR, defaults) /\ forall f ss, conf_file args f -> ~ file_settings fopen f ss).
Proof.
  intros mem fopen silent args. unfold args_parse. pose proof (last_conf_spec args 0 None) as LC. set (c := last_conf 0 args None) in *. clearbody c.
  assert (CF : conf_file args (option_map snd c) /\ forall k a, option_map fst c = Some k -> (0 <= k)%nat -> nth_error args (k - 0) = Some a -> exists f, a = (lit "conf=" ++ f)%list).
  { destruct c as [[k f]|]; cbn [option_map fst snd conf_file].
    - destruct LC as [(_ & N & X)|(X & _)]; [|discriminate]. split; [exact X|]. intros k' a Q _ N'. injection Q as <-. rewrite N in N'. injection N' as <-. exists f. reflexivity.
    - destruct LC as (_ & X). split; [exact X|]. discriminate. }
  destruct CF as (CF & SK). clear LC.
  assert (RC : forall o', read_config_file mem fopen defaults (option_map snd c) = Some o' <-> exists ss, file_settings fopen (option_map snd c) ss /\ o' = fold_left (apply_setting mem) ss defaults).
  { intro o'. unfold read_config_file, file_settings. set (f := option_map snd c) in *. destruct (fopen (match f with Some f => f | None => lit "/etc/security/faillock.conf" end)) as [text| |] eqn:FO.
    - rewrite read_lines_iff. split.
      + intros (ss & R & E). exists ss. split; [left; exists text; auto|exact E].
      + intros (ss & [(t & T & R)|(F & T & _)] & E); [injection T as <-; exists ss; auto|]. rewrite F in FO. rewrite T in FO. discriminate FO.
    - destruct f as [f|].
      + split; [discriminate|]. intros (ss & [(t & T & _)|(T & _)] & _); discriminate.
      + split; [intro Q; injection Q as <-; exists []; split; [right; auto|reflexivity]|]. intros (ss & [(t & T & _)|(_ & _ & ->)] & ->); [discriminate|reflexivity].
    - split; [discriminate|]. intros (ss & [(t & T & _)|(F & T & _)] & _); [discriminate|]. rewrite F in FO. rewrite T in FO. discriminate FO. }
  destruct (read_config_file mem fopen defaults (option_map snd c)) as [o|] eqn:R.
  - left. destruct (proj1 (RC o) eq_refl) as (ss & FS & EO). exists (option_map snd c), ss, (map parse_arg args). split; [exact CF|]. split; [exact FS|]. split; [apply forall2_args; reflexivity|].
    cbv zeta. rewrite (take_args_fold mem _ args 0 o SK). subst o. rewrite fold_left_app.
    assert (A0 : s_action (fold_left (apply_setting mem) ss defaults) = Preauth).
    { clear. change Preauth with (s_action defaults). generalize defaults. induction ss as [|s ss IH]; intro o; [reflexivity|]. cbn [fold_left]. rewrite IH. apply apply_keeps_action. }
    rewrite A0. unfold act. reflexivity.
  - right. split; [reflexivity|]. intros f ss F G. rewrite (conf_unique args f _ F CF) in G. assert (X : None = Some (fold_left (apply_setting mem) ss defaults)) by (apply RC; exists ss; auto). discriminate.
Qed.

(** Every setting is the last valid one, arguments coming after the file; root_unlock_time is like unlock_time when not given. *)
Theorem faillock_settings : forall mem fopen silent args o, args_parse mem fopen silent args = (PAM_SUCCESS, o) ->
  exists f ss as_, conf_file args f /\ file_settings fopen f ss /\ Forall2 arg_says args as_ /\
    let all := (ss ++ as_)%list in
    latest gives_action args Preauth (s_action o) /\
    latest gives_deny all 3 (s_deny o) /\ latest gives_interval all 900 (s_interval o) /\
    latest (gives_unlock (lit "unlock_time")) all 600 (s_unlock o) /\ latest (gives_unlock (lit "root_unlock_time")) all (s_unlock o) (s_root_unlock o) /\
    latest gives_dir all None (s_dir o) /\ latest gives_admin all None (s_admin o) /\
    (s_deny_root o = true <-> present (lit "even_deny_root") all) /\ (s_audit o = true <-> present (lit "audit") all) /\
    (s_silent o = true <-> present (lit "silent") all \/ silent = true) /\ (s_nolog o = true <-> present (lit "no_log_info") all) /\
    (s_local o = true <-> present (lit "local_users_only") all) /\ (s_nodelay o = true <-> present (lit "nodelay") all).
Proof.
  intros mem fopen silent args o R. destruct (args_parse_run mem fopen silent args) as [(f & ss & as_ & CF & FS & FA & Q)|(Q & _)]; [|rewrite Q in R; discriminate R].
  exists f, ss, as_. split; [exact CF|]. split; [exact FS|]. split; [exact FA|]. cbv zeta in *. set (all := (ss ++ as_)%list) in *. clearbody all. clear CF FS FA.
  rewrite Q in R. clear Q. set (p := fold_left (apply_setting mem) all defaults) in *.
  assert (NF : s_fatal p = false) by (destruct (s_fatal p); [discriminate R|reflexivity]).
  assert (NC : forall s, In s all -> ~ no_copy mem s).
  { intros s I X. assert (Y : s_fatal p = true) by (apply (flag_fold (no_copy mem) (apply_setting mem) s_fatal (fatal_step mem)); left; exists s; auto). congruence. }
  injection R as _ <-. cbn [s_action s_deny s_interval s_unlock s_root_unlock s_dir s_admin s_deny_root s_audit s_silent s_nolog s_local s_nodelay s_fatal].
  assert (PR : forall name, (exists s, In s all /\ fst s = name) <-> present name all).
  { intro name. split; [intros ([n v] & I & <-); exists v; exact I|]. intros (v & I). exists (name, v). auto. }
  assert (FL : forall (val : settings -> bool) name, (forall mem o s, val (apply_setting mem o s) = true <-> fst s = name \/ val o = true) -> val defaults = false -> (val p = true <-> present name all)).
  { intros val name H D. unfold p. rewrite (flag_fold (fun s => fst s = name) (apply_setting mem) val (H mem)), PR, D. split; [intros [X|X]; [exact X|discriminate]|auto]. }
  split; [apply (latest_fold gives_action act_step (fun x => x)); intros; apply action_step|].
  split; [apply (latest_fold gives_deny (apply_setting mem) s_deny all (fun t s _ => deny_step mem t s) defaults)|].
  split; [apply (latest_fold gives_interval (apply_setting mem) s_interval all (fun t s _ => interval_step mem t s) defaults)|].
  split; [apply (latest_fold (gives_unlock (lit "unlock_time")) (apply_setting mem) s_unlock all (fun t s _ => unlock_step mem t s) defaults)|].
  split.
  { destruct (latest_fold (gives_unlock (lit "root_unlock_time")) (apply_setting mem) s_root_unlock all (fun t s _ => root_step mem t s) defaults) as [(a & s & b & E & G & N)|(N & E)]; unfold p in *; clear p.
    - left. exists a, s, b. split; [exact E|]. split; [|exact N]. replace (s_root_unlock (fold_left (apply_setting mem) all defaults) =? 604801) with false; [exact G|]. symmetry. apply Z.eqb_neq.
      destruct G as (_ & [(_ & ->)|(_ & _ & L)]); [discriminate|lia].
    - right. split; [exact N|]. rewrite E. reflexivity. }
  split; [apply (latest_fold gives_dir (apply_setting mem) s_dir all (fun t s I => dir_step mem t s (NC s I)) defaults)|].
  split; [apply (latest_fold gives_admin (apply_setting mem) s_admin all (fun t s I => admin_step mem t s (NC s I)) defaults)|].
  split; [apply FL; [exact deny_root_step|reflexivity]|]. split; [apply FL; [exact audit_step|reflexivity]|].
  split; [rewrite orb_true_iff, (FL s_silent (lit "silent") silent_step eq_refl); reflexivity|]. split; [apply FL; [exact nolog_step|reflexivity]|].
  split; [apply FL; [exact local_step|reflexivity]|apply FL; [exact nodelay_step|reflexivity]].
Qed.

(** When the settings cannot be taken: no such file, a broken line, no memory. *)
Theorem faillock_settings_errors : forall mem fopen silent args f, conf_file args f ->
  ((forall ss, ~ file_settings fopen f ss) -> fst (args_parse mem fopen silent args) = PAM_SERVICE_ERR) /\
  (forall ss as_, file_settings fopen f ss -> Forall2 arg_says args as_ ->
     fst (args_parse mem fopen silent args) = PAM_SUCCESS /\ (forall s, In s (ss ++ as_) -> ~ no_copy mem s) \/
     fst (args_parse mem fopen silent args) = PAM_BUF_ERR /\ exists s, In s (ss ++ as_) /\ no_copy mem s).
Proof.
  intros mem fopen silent args f CF. destruct (args_parse_run mem fopen silent args) as [(f' & ss & as_ & CF' & FS & FA & Q)|(Q & N)].
  - rewrite (conf_unique args f' f CF' CF) in *. clear f' CF'. split; [intro X; exfalso; exact (X ss FS)|]. intros ss' as' FS' FA'.
    assert (ES : ss' = ss).
    { destruct FS as [(t & T & R)|(F & T & ->)], FS' as [(t' & T' & R')|(F' & T' & ->)].
      - rewrite T in T'. injection T' as <-. apply (reads_unique _ _ _ R' R).
      - rewrite F' in T. cbv iota in T. congruence.
      - rewrite F in T'. cbv iota in T'. congruence.
      - reflexivity. }
    apply forall2_args in FA. apply forall2_args in FA'. subst ss' as_ as'. cbv zeta in Q. rewrite Q. cbn [fst].
    pose proof (flag_fold (no_copy mem) (apply_setting mem) s_fatal (fatal_step mem) (ss ++ map parse_arg args) defaults) as FF. destruct (s_fatal (fold_left (apply_setting mem) (ss ++ map parse_arg args) defaults)).
    + right. split; [reflexivity|]. destruct (proj1 FF eq_refl) as [X|X]; [exact X|discriminate X].
    + left. split; [reflexivity|]. intros s I X. assert (Y : false = true) by (apply FF; left; exists s; auto). discriminate.
  - rewrite Q. split; [reflexivity|]. intros ss as_ FS. exfalso. exact (N f ss CF FS).
Qed.

(** The settings are within the limits that the tally functions rely on. *)
Theorem faillock_settings_range : forall mem fopen silent args o, args_parse mem fopen silent args = (PAM_SUCCESS, o) ->
  0 <= s_deny o < 65536 /\ 0 <= s_interval o <= 604800 /\ 0 <= s_unlock o <= 604800 /\ 0 <= s_root_unlock o <= 604800 /\ (exists r, tally_dir o = "/"%char :: r).
Proof.
  intros mem fopen silent args o R. destruct (faillock_settings mem fopen silent args o R) as (f & ss & as_ & _ & _ & _ & _ & D & I & U & RU & DI & _). cbv zeta in *.
  assert (NT : forall v x, gives_time v x -> 0 <= x <= 604800) by (intros v x ((neg & n & r & _ & ->) & L); split; [apply Z.mod_pos_bound; lia|exact L]).
  assert (U' : 0 <= s_unlock o <= 604800).
  { destruct U as [(a & s & b & _ & (_ & [(_ & ->)|(_ & G)]) & _)|(_ & ->)]; [lia|exact (NT _ _ G)|lia]. }
  split; [|split; [|split; [exact U'|split]]].
  - destruct D as [(a & s & b & _ & (_ & neg & n & r & _ & ->) & _)|(_ & ->)]; [apply Z.mod_pos_bound; reflexivity|lia].
  - destruct I as [(a & s & b & _ & (_ & G) & _)|(_ & ->)]; [exact (NT _ _ G)|lia].
  - destruct RU as [(a & s & b & _ & (_ & [(_ & ->)|(_ & G)]) & _)|(_ & ->)]; [lia|exact (NT _ _ G)|exact U'].
  - unfold tally_dir. destruct DI as [(a & s & b & _ & (_ & (r & E) & ->) & _)|(_ & ->)]; [exists r; exact E|eexists; reflexivity].
Qed.

(** ** Examples *)
Definition exOpen (text : list ascii) : cstr -> fopened := fun f => if streq f (lit "/f") then FText text else FNone.
Definition exText : list ascii := (lit "# settings" ++ c_nl :: lit " deny = 5 # tries" ++ c_nl :: lit "unlock_time never" ++ c_nl :: lit "even_deny_root" ++ c_nl :: lit "fail_interval=9999999" ++ [c_nl])%list.
Example settings_example : exists o, args_parse (fun _ => true) (exOpen exText) false [lit "authfail"; lit "conf=/f"; lit "deny=4"; lit "dir=/t"; lit "dir=x"; lit "root_unlock_time=60"] = (PAM_SUCCESS, o) /\
  o = mkS Authfail 4 900 0 60 (Some (lit "/t")) None true false false false false false false.
Proof. eexists. split; [vm_compute; reflexivity|reflexivity]. Qed.
Example line_example : says (lit " deny = 5 # tries" ++ [c_nl])%list (lit "deny") (lit "5").
Proof. apply faillock_line. vm_compute. reflexivity. Qed.
Example errors_example : fst (args_parse (fun _ => true) (fun _ => FNone) false [lit "conf=/g"]) = PAM_SERVICE_ERR /\ fst (args_parse (fun _ => true) (fun _ => FNone) false []) = PAM_SUCCESS /\
  fst (args_parse (fun _ => false) (fun _ => FNone) false [lit "dir=/t"]) = PAM_BUF_ERR.
Proof. vm_compute. auto. Qed.

(** ** What does not hold *)

(** "A number that is too large is refused": 65536 failures mean that nobody is ever locked out, and a time of 2^32 seconds means never. *)
Theorem faillock_large_number_refuted : exists o o', args_parse (fun _ => true) (fun _ => FNone) false [lit "deny=65536"] = (PAM_SUCCESS, o) /\ s_deny o = 0 /\
  args_parse (fun _ => true) (fun _ => FNone) false [lit "unlock_time=4294967296"] = (PAM_SUCCESS, o') /\ s_unlock o' = 0.
Proof. eexists. eexists. split; [vm_compute; reflexivity|]. split; [reflexivity|]. split; [vm_compute; reflexivity|reflexivity]. Qed.
(** "A value must be a number": what follows a number is ignored, and so is a minus sign. *)
Theorem faillock_malformed_number_refuted : exists o o', args_parse (fun _ => true) (fun _ => FNone) false [lit "unlock_time=10min"] = (PAM_SUCCESS, o) /\ s_unlock o = 10 /\
  args_parse (fun _ => true) (fun _ => FNone) false [lit "deny=-1"] = (PAM_SUCCESS, o') /\ s_deny o' = 65535.
Proof. eexists. eexists. split; [vm_compute; reflexivity|]. split; [reflexivity|]. split; [vm_compute; reflexivity|reflexivity]. Qed.
(** "A flag can be given as off": any value sets it. *)
Theorem faillock_flag_value_refuted : exists o, args_parse (fun _ => true) (fun _ => FNone) false [lit "even_deny_root=no"] = (PAM_SUCCESS, o) /\ s_deny_root o = true.
Proof. eexists. split; [vm_compute; reflexivity|reflexivity]. Qed.

Print Assumptions faillock_line.
Print Assumptions faillock_settings.
Print Assumptions faillock_settings_errors.
Print Assumptions faillock_settings_range.
Print Assumptions faillock_large_number_refuted.
Print Assumptions faillock_malformed_number_refuted.
Print Assumptions faillock_flag_value_refuted.
