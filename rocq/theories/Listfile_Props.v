(** C61: pam_listfile says yes or no by the list, and fails closed when it is not configured. *)
From Coq Require Import String Ascii List Arith ZArith Bool Lia Permutation.
From Verif Require Import Base Num_Model Str_Model Str_Facts Opt_Model Opt_Facts Listfile_Model.
Import ListNotations.
Local Open Scope Z_scope.

(** ** The spec *)

(** The last option of the form [k]v. *)
Definition last_value (k : cstr) (args : list cstr) (v : cstr) : Prop :=
  exists a b, args = (a ++ (k ++ v) :: b)%list /\ forall x w, In x b -> x <> (k ++ w)%list.
(** At most one option starts with [k]. *)
Definition single (k : cstr) (args : list cstr) : Prop :=
  forall a x b y c, args = (a ++ (k ++ x) :: b ++ (k ++ y) :: c)%list -> False.
(** The values of item=. *)
Inductive what := WUser | WTty | WRhost | WRuser | WGroup | WShell.
Definition name_of (w : what) : cstr :=
  match w with
  | WUser => lit "user" | WTty => lit "tty" | WRhost => lit "rhost" | WRuser => lit "ruser"
  | WGroup => lit "group" | WShell => lit "shell"
  end.
(** An option that the module knows, or one without an equals sign, which it passes over. *)
Definition known (a : cstr) : Prop :=
  ~ In "="%char a \/ a = lit "onerr=succeed" \/ a = lit "onerr=fail" \/ a = lit "sense=allow" \/ a = lit "sense=deny" \/
  (exists v, a = (lit "file=" ++ v)%list) \/ (exists v, a = (lit "item=" ++ v)%list) \/ (exists v, a = (lit "apply=" ++ v)%list).
(** Whose name the item gives. *)
Definition subject (E : env) (w : what) : option cstr :=
  match w with
  | WUser | WGroup | WShell => match e_user E with Some u => Some u | None => match e_item E IUser with Some u => Some u | None => e_user2 E end end
  | WTty => e_item E ITty
  | WRhost => e_item E IRhost
  | WRuser => e_item E IRuser
  end.
(** The subject without /dev/, for a terminal. *)
Definition bare (w : what) (s s' : cstr) : Prop :=
  match w with
  | WTty => s = (lit "/dev/" ++ s')%list \/ (s' = s /\ forall r, s <> (lit "/dev/" ++ r)%list)
  | _ => s' = s
  end.
(** The entry [e] of the list is about the subject [s]. *)
Definition about (E : env) (w : what) (s e : cstr) : Prop :=
  match w with
  | WUser | WRhost | WRuser => e = s
  | WTty => bare WTty e s
  | WGroup => e_ingroup E s e = true
  | WShell => e_shell E s = Some e
  end.
(** The list in [text] has an entry about [s]. *)
Definition listed (E : env) (w : what) (text s : cstr) : Prop :=
  exists e, e <> [] /\ entry line_end text e /\ about E w s e.
(** All that is needed is given, and nothing else. *)
Definition configured (args : list cstr) : Prop :=
  (forall a, In a args -> known a) /\ (exists w, last_value (lit "item=") args (name_of w)) /\ (exists f, last_value (lit "file=") args f) /\
  (exists v, last_value (lit "sense=") args v) /\ ~ last_value (lit "apply=") args [] /\ ~ last_value (lit "apply=") args (lit "@").
(** The value [v] of apply= means the user [u]. *)
Definition means (E : env) (v u : cstr) : Prop :=
  (exists g, v = ("@"%char :: g) /\ e_ingroup E u g = true) \/ ((forall g, v <> "@"%char :: g) /\ v = u).
(** apply= counts for terminals and hosts only. *)
Definition has_apply (w : what) : Prop := w = WTty \/ w = WRhost.
(** The value of sense=. *)
Definition sense_of (deny : bool) : cstr := if deny then lit "deny" else lit "allow".

(** ** Options *)

Definition lastv (k : cstr) (args : list cstr) : option cstr :=
  fold_left (fun acc a => match skip_prefix k a with Some v => Some v | None => acc end) args None.

Lemma lastv_snoc : forall k args a, lastv k (args ++ [a]) = match skip_prefix k a with Some v => Some v | None => lastv k args end.
Proof. intros. unfold lastv. rewrite fold_left_app. reflexivity. Qed.

Lemma lastv_spec : forall k args v, lastv k args = Some v <-> last_value k args v.
Proof.
  intros k. induction args as [|a args IH] using rev_ind; intro v.
  - split; [discriminate|]. intros (a & b & E & _). destruct a; discriminate.
  - rewrite lastv_snoc. destruct (skip_prefix k a) as [w|] eqn:P.
    + apply skip_prefix_some in P. subst a. split.
      * injection 1 as ->. exists args, []. split; [reflexivity|]. intros x w [].
      * intros (x & b & E & N). destruct b as [|y b] using rev_ind.
        -- apply app_inj_tail in E. destruct E as (_ & E). apply app_inv_head in E. congruence.
        -- clear IHb. rewrite app_comm_cons, app_assoc in E. apply app_inj_tail in E. destruct E as (_ & E). exfalso. apply (N y w); [apply in_or_app; right; left; reflexivity|]. congruence.
    + rewrite IH. apply skip_prefix_none in P. split.
      * intros (x & b & -> & N). exists x, (b ++ [a]). split; [rewrite <- app_assoc; reflexivity|].
        intros y w I. apply in_app_or in I. destruct I as [I|[<-|[]]]; [apply N; exact I|]. intros ->. apply P. exists w. reflexivity.
      * intros (x & b & E & N). destruct b as [|y b] using rev_ind.
        -- apply app_inj_tail in E. destruct E as (_ & ->). exfalso. apply P. exists v. reflexivity.
        -- clear IHb. rewrite app_comm_cons, app_assoc in E. apply app_inj_tail in E. destruct E as (-> & ->). exists x, b. split; [reflexivity|].
           intros z w I. apply N. apply in_or_app. left. exact I.
Qed.

Definition run (args : list cstr) : opts := fold_left one_arg args opts0.
Lemma run_snoc : forall args a, run (args ++ [a]) = one_arg (run args) a.
Proof. intros. unfold run. rewrite fold_left_app. reflexivity. Qed.

Lemma strchr_in : forall c s, strchr c s = None <-> ~ In c s.
Proof.
  intros c. induction s as [|x s IH]; cbn [strchr In]; [tauto|]. destruct (Ascii.eqb x c) eqn:X.
  - apply Ascii.eqb_eq in X. split; [discriminate|]. intro H. exfalso. apply H. left. exact X.
  - apply Ascii.eqb_neq in X. rewrite IH. tauto.
Qed.

(** What an option is. *)
Inductive arg_case (a : cstr) : Prop :=
| CaseNone : ~ In "="%char a -> arg_case a
| CaseOnerr : forall v, a = (lit "onerr=" ++ v)%list -> arg_case a
| CaseSense : forall v, a = (lit "sense=" ++ v)%list -> arg_case a
| CaseFile : forall v, a = (lit "file=" ++ v)%list -> arg_case a
| CaseItem : forall v, a = (lit "item=" ++ v)%list -> arg_case a
| CaseApply : forall v, a = (lit "apply=" ++ v)%list -> arg_case a
| CaseOther : In "="%char a -> (forall k, In k [lit "onerr="; lit "sense="; lit "file="; lit "item="; lit "apply="] -> skip_prefix k a = None) -> arg_case a.

Lemma arg_cases : forall a, arg_case a.
Proof.
  intro a. destruct (strchr "="%char a) eqn:C; [|apply CaseNone; apply strchr_in; exact C].
  assert (I : In "="%char a).
  { destruct (in_dec ascii_dec "="%char a) as [I|N]; [exact I|]. apply strchr_in in N. congruence. }
  destruct (skip_prefix (lit "onerr=") a) eqn:P1; [apply (CaseOnerr _ c0); apply skip_prefix_some; exact P1|].
  destruct (skip_prefix (lit "sense=") a) eqn:P2; [apply (CaseSense _ c0); apply skip_prefix_some; exact P2|].
  destruct (skip_prefix (lit "file=") a) eqn:P3; [apply (CaseFile _ c0); apply skip_prefix_some; exact P3|].
  destruct (skip_prefix (lit "item=") a) eqn:P4; [apply (CaseItem _ c0); apply skip_prefix_some; exact P4|].
  destruct (skip_prefix (lit "apply=") a) eqn:P5; [apply (CaseApply _ c0); apply skip_prefix_some; exact P5|].
  apply CaseOther; [exact I|]. intros k [<-|[<-|[<-|[<-|[<-|[]]]]]]; assumption.
Qed.

Lemma no_eq_prefix : forall k a, In "="%char k -> ~ In "="%char a -> skip_prefix k a = None.
Proof.
  intros k a I N. destruct (skip_prefix k a) as [v|] eqn:P; [|reflexivity]. apply skip_prefix_some in P. subst a.
  exfalso. apply N. apply in_or_app. left. exact I.
Qed.

Lemma one_none : forall o a, ~ In "="%char a -> one_arg o a = o.
Proof.
  intros o a N. unfold one_arg. destruct (streq a (lit "quiet")); [reflexivity|]. apply strchr_in in N. rewrite N. reflexivity.
Qed.

Lemma one_other : forall o a, In "="%char a -> (forall k, In k [lit "onerr="; lit "sense="; lit "file="; lit "item="; lit "apply="] -> skip_prefix k a = None) ->
  one_arg o a = err (o_onerr o) o.
Proof.
  intros o a I N. unfold one_arg. destruct (streq a (lit "quiet")) eqn:Q.
  - apply streq_eq in Q. subst a. exfalso. cbn in I. repeat (destruct I as [I|I]; [discriminate I|]). exact I.
  - destruct (strchr "="%char a) eqn:C; [|apply strchr_in in C; contradiction].
    rewrite !N by (cbn; tauto). reflexivity.
Qed.

Lemma one_onerr : forall o v, one_arg o (lit "onerr=" ++ v)%list =
  (if streq v (lit "succeed") then mkOpts (o_retval o) PAM_SUCCESS (o_item o) (o_ext o) (o_sense o) (o_file o) (o_apply o)
   else if streq v (lit "fail") then mkOpts (o_retval o) PAM_SERVICE_ERR (o_item o) (o_ext o) (o_sense o) (o_file o) (o_apply o)
   else err PAM_SERVICE_ERR o).
Proof. reflexivity. Qed.
Lemma one_sense : forall o v, one_arg o (lit "sense=" ++ v)%list =
  (if streq v (lit "allow") then mkOpts (o_retval o) (o_onerr o) (o_item o) (o_ext o) (Some false) (o_file o) (o_apply o)
   else if streq v (lit "deny") then mkOpts (o_retval o) (o_onerr o) (o_item o) (o_ext o) (Some true) (o_file o) (o_apply o)
   else err (o_onerr o) o).
Proof. reflexivity. Qed.
Lemma one_file : forall o v, one_arg o (lit "file=" ++ v)%list = mkOpts (o_retval o) (o_onerr o) (o_item o) (o_ext o) (o_sense o) (Some v) (o_apply o).
Proof. reflexivity. Qed.
Lemma one_item : forall o v, one_arg o (lit "item=" ++ v)%list = set_item v o.
Proof. reflexivity. Qed.
Lemma one_apply : forall o v, one_arg o (lit "apply=" ++ v)%list =
  mkOpts (o_retval o) (o_onerr o) (o_item o) (o_ext o) (o_sense o) (o_file o)
    (match v with c :: v' => if Ascii.eqb c "@"%char then AGroup v' else AUser v | [] => AUser [] end).
Proof. reflexivity. Qed.

Ltac arg_split a :=
  let C := fresh "C" in pose proof (arg_cases a) as C; destruct C as [N|v ->|v ->|v ->|v ->|v ->|I N];
  [rewrite ?(one_none _ _ N)|rewrite ?one_onerr|rewrite ?one_sense|rewrite ?one_file|rewrite ?one_item|rewrite ?one_apply|rewrite ?(one_other _ _ I N)].

Lemma set_item_keeps : forall v o, o_retval (set_item v o) = o_retval o /\ o_onerr (set_item v o) = o_onerr o /\ o_sense (set_item v o) = o_sense o /\
  o_file (set_item v o) = o_file o /\ o_apply (set_item v o) = o_apply o.
Proof.
  intros v o. unfold set_item. repeat match goal with |- context [if ?b then _ else _] => destruct b end; repeat split; reflexivity.
Qed.

Lemma run_file : forall args, o_file (run args) = lastv (lit "file=") args.
Proof.
  induction args as [|a args IH] using rev_ind; [reflexivity|]. rewrite run_snoc, lastv_snoc. arg_split a.
  - rewrite no_eq_prefix; [exact IH| |exact N]. cbn. tauto.
  - rewrite <- IH. destruct (streq v (lit "succeed")); [reflexivity|]. destruct (streq v (lit "fail")); reflexivity.
  - rewrite <- IH. destruct (streq v (lit "allow")); [reflexivity|]. destruct (streq v (lit "deny")); reflexivity.
  - reflexivity.
  - rewrite <- IH. apply (set_item_keeps v).
  - rewrite <- IH. reflexivity.
  - rewrite N by (cbn; tauto). exact IH.
Qed.

Lemma run_onerr : forall args, (o_onerr (run args) = PAM_SERVICE_ERR \/ o_onerr (run args) = PAM_SUCCESS /\ In (lit "onerr=succeed") args).
Proof.
  induction args as [|a args IH] using rev_ind; [left; reflexivity|]. rewrite run_snoc.
  assert (IH' : o_onerr (run args) = PAM_SERVICE_ERR \/ o_onerr (run args) = PAM_SUCCESS /\ In (lit "onerr=succeed") (args ++ [a])).
  { destruct IH as [IH|(IH & I)]; [left; exact IH|right; split; [exact IH|apply in_or_app; left; exact I]]. }
  clear IH. arg_split a; try exact IH'.
  - destruct (streq v (lit "succeed")) eqn:V.
    + apply streq_eq in V. subst v. right. split; [reflexivity|]. apply in_or_app. right. left. reflexivity.
    + destruct (streq v (lit "fail")); [left; reflexivity|exact IH'].
  - destruct (streq v (lit "allow")); [exact IH'|]. destruct (streq v (lit "deny")); exact IH'.
  - destruct (set_item_keeps v (run args)) as (_ & O & _). rewrite O. exact IH'.
Qed.

(** An error in an option stays. *)
Lemma run_retval : forall args,
  (o_retval (run args) = -1 /\ (forall a, In a args -> known a)) \/
  (o_retval (run args) <> -1 /\ ~ (forall a, In a args -> known a) /\
   (o_retval (run args) = PAM_SERVICE_ERR \/ o_retval (run args) = PAM_SUCCESS /\ In (lit "onerr=succeed") args)).
Proof.
  induction args as [|a args IH] using rev_ind; [left; split; [reflexivity|intros a []]|]. rewrite run_snoc.
  assert (KEEP : known a -> o_retval (one_arg (run args) a) = o_retval (run args) ->
    (o_retval (one_arg (run args) a) = -1 /\ (forall x, In x (args ++ [a]) -> known x)) \/
    (o_retval (one_arg (run args) a) <> -1 /\ ~ (forall x, In x (args ++ [a]) -> known x) /\
     (o_retval (one_arg (run args) a) = PAM_SERVICE_ERR \/ o_retval (one_arg (run args) a) = PAM_SUCCESS /\ In (lit "onerr=succeed") (args ++ [a])))).
  { intros K R. rewrite R. destruct IH as [(V & A)|(V & A & X)].
    - left. split; [exact V|]. intros x I. apply in_app_or in I. destruct I as [I|[<-|[]]]; [apply A; exact I|exact K].
    - right. split; [exact V|]. split; [intro Y; apply A; intros x I; apply Y; apply in_or_app; left; exact I|].
      destruct X as [X|(X & I)]; [left; exact X|right; split; [exact X|apply in_or_app; left; exact I]]. }
  assert (BAD : forall r, (r = PAM_SERVICE_ERR \/ r = o_onerr (run args)) -> ~ known a -> one_arg (run args) a = err r (run args) ->
    (o_retval (one_arg (run args) a) = -1 /\ (forall x, In x (args ++ [a]) -> known x)) \/
    (o_retval (one_arg (run args) a) <> -1 /\ ~ (forall x, In x (args ++ [a]) -> known x) /\
     (o_retval (one_arg (run args) a) = PAM_SERVICE_ERR \/ o_retval (one_arg (run args) a) = PAM_SUCCESS /\ In (lit "onerr=succeed") (args ++ [a])))).
  { intros r R K ->. right. cbn [err o_retval].
    assert (Q : (if o_retval (run args) =? -1 then r else o_retval (run args)) = PAM_SERVICE_ERR \/
                (if o_retval (run args) =? -1 then r else o_retval (run args)) = PAM_SUCCESS /\ In (lit "onerr=succeed") (args ++ [a])).
    { destruct IH as [(V & _)|(V & _ & X)].
      - rewrite V, Z.eqb_refl. destruct R as [->| ->]; [left; reflexivity|]. destruct (run_onerr args) as [O|(O & I)]; rewrite O; [left; reflexivity|].
        right. split; [reflexivity|]. apply in_or_app. left. exact I.
      - apply Z.eqb_neq in V. rewrite V. destruct X as [X|(X & I)]; [left; exact X|]. right. split; [exact X|]. apply in_or_app. left. exact I. }
    split; [destruct Q as [Q|(Q & _)]; rewrite Q; discriminate|]. split; [|exact Q].
    intro Y. apply K. apply Y. apply in_or_app. right. left. reflexivity. }
  pose proof (arg_cases a) as C. destruct C as [N|v ->|v ->|v ->|v ->|v ->|I N].
  - apply KEEP; [left; exact N|]. rewrite one_none by exact N. reflexivity.
  - destruct (streq v (lit "succeed")) eqn:V; [apply streq_eq in V; subst v; apply KEEP; [right; left; reflexivity|reflexivity]|].
    destruct (streq v (lit "fail")) eqn:V2; [apply streq_eq in V2; subst v; apply KEEP; [right; right; left; reflexivity|reflexivity]|].
    apply (BAD PAM_SERVICE_ERR); [left; reflexivity| |rewrite one_onerr, V, V2; reflexivity].
    assert (NV : v <> lit "succeed") by (intros ->; rewrite streq_refl in V; discriminate).
    assert (NV2 : v <> lit "fail") by (intros ->; rewrite streq_refl in V2; discriminate).
    intros [X|[X|[X|[X|[X|[(w & X)|[(w & X)|(w & X)]]]]]]]; try discriminate X.
    + apply X. cbn. tauto.
    + apply NV. change (lit "onerr=succeed") with (lit "onerr=" ++ lit "succeed")%list in X. apply app_inv_head in X. exact X.
    + apply NV2. change (lit "onerr=fail") with (lit "onerr=" ++ lit "fail")%list in X. apply app_inv_head in X. exact X.
  - destruct (streq v (lit "allow")) eqn:V; [apply streq_eq in V; subst v; apply KEEP; [right; right; right; left; reflexivity|reflexivity]|].
    destruct (streq v (lit "deny")) eqn:V2; [apply streq_eq in V2; subst v; apply KEEP; [right; right; right; right; left; reflexivity|reflexivity]|].
    apply (BAD (o_onerr (run args))); [right; reflexivity| |rewrite one_sense, V, V2; reflexivity].
    assert (NV : v <> lit "allow") by (intros ->; rewrite streq_refl in V; discriminate).
    assert (NV2 : v <> lit "deny") by (intros ->; rewrite streq_refl in V2; discriminate).
    intros [X|[X|[X|[X|[X|[(w & X)|[(w & X)|(w & X)]]]]]]]; try discriminate X.
    + apply X. cbn. tauto.
    + apply NV. change (lit "sense=allow") with (lit "sense=" ++ lit "allow")%list in X. apply app_inv_head in X. exact X.
    + apply NV2. change (lit "sense=deny") with (lit "sense=" ++ lit "deny")%list in X. apply app_inv_head in X. exact X.
  - apply KEEP; [|reflexivity]. right. right. right. right. right. left. exists v. reflexivity.
  - apply KEEP; [|apply (set_item_keeps v)]. right. right. right. right. right. right. left. exists v. reflexivity.
  - apply KEEP; [|reflexivity]. right. right. right. right. right. right. right. exists v. reflexivity.
  - apply (BAD (o_onerr (run args))); [right; reflexivity| |apply one_other; assumption].
    intros [X|[X|[X|[X|[X|[(w & X)|[(w & X)|(w & X)]]]]]]].
    + contradiction.
    + subst a. specialize (N (lit "onerr=") (or_introl eq_refl)). discriminate N.
    + subst a. specialize (N (lit "onerr=") (or_introl eq_refl)). discriminate N.
    + subst a. specialize (N (lit "sense=") (or_intror (or_introl eq_refl))). discriminate N.
    + subst a. specialize (N (lit "sense=") (or_intror (or_introl eq_refl))). discriminate N.
    + subst a. specialize (N (lit "file=")). rewrite skip_prefix_app in N. discriminate N. cbn; tauto.
    + subst a. specialize (N (lit "item=")). rewrite skip_prefix_app in N. discriminate N. cbn; tauto.
    + subst a. specialize (N (lit "apply=")). rewrite skip_prefix_app in N. discriminate N. cbn; tauto.
Qed.

Lemma run_sense : forall args, (forall a, In a args -> known a) ->
  forall b, o_sense (run args) = Some b <-> lastv (lit "sense=") args = Some (sense_of b).
Proof.
  induction args as [|a args IH] using rev_ind; intros K b; [split; discriminate|]. rewrite run_snoc, lastv_snoc.
  assert (K' : forall x, In x args -> known x) by (intros x I; apply K; apply in_or_app; left; exact I).
  assert (Ka : known a) by (apply K; apply in_or_app; right; left; reflexivity).
  specialize (IH K' b). clear K K'. arg_split a.
  - rewrite no_eq_prefix; [exact IH| |exact N]. cbn. tauto.
  - rewrite <- IH. destruct (streq v (lit "succeed")); [reflexivity|]. destruct (streq v (lit "fail")); reflexivity.
  - rewrite skip_prefix_app. clear IH. destruct Ka as [X|[X|[X|[X|[X|[(w & X)|[(w & X)|(w & X)]]]]]]]; try discriminate X.
    + exfalso. apply X. cbn. tauto.
    + change (lit "sense=allow") with (lit "sense=" ++ lit "allow")%list in X. apply app_inv_head in X. subst v. cbn [o_sense].
      change (streq (lit "allow") (lit "allow")) with true. cbn [o_sense]. destruct b; cbn [sense_of]; split; intro; try reflexivity; try discriminate.
    + change (lit "sense=deny") with (lit "sense=" ++ lit "deny")%list in X. apply app_inv_head in X. subst v.
      change (streq (lit "deny") (lit "allow")) with false. change (streq (lit "deny") (lit "deny")) with true. cbn [o_sense].
      destruct b; cbn [sense_of]; split; intro; try reflexivity; try discriminate.
  - exact IH.
  - destruct (set_item_keeps v (run args)) as (_ & _ & O & _). rewrite O. exact IH.
  - exact IH.
  - rewrite N by (cbn; tauto). exact IH.
Qed.

Lemma known_sense : forall args v, (forall a, In a args -> known a) -> lastv (lit "sense=") args = Some v -> exists b, v = sense_of b.
Proof.
  intros args v K H. apply lastv_spec in H. destruct H as (a & b & -> & _).
  assert (X : known (lit "sense=" ++ v)%list) by (apply K; apply in_or_app; right; left; reflexivity).
  destruct X as [X|[X|[X|[X|[X|[(w & X)|[(w & X)|(w & X)]]]]]]]; try discriminate X.
  - exfalso. apply X. cbn. tauto.
  - change (lit "sense=allow") with (lit "sense=" ++ lit "allow")%list in X. apply app_inv_head in X. exists false. exact X.
  - change (lit "sense=deny") with (lit "sense=" ++ lit "deny")%list in X. apply app_inv_head in X. exists true. exact X.
Qed.

Definition apply_of (v : cstr) : apply :=
  match v with c :: v' => if Ascii.eqb c "@"%char then AGroup v' else AUser v | [] => AUser [] end.

Lemma run_apply : forall args, o_apply (run args) = match lastv (lit "apply=") args with Some v => apply_of v | None => ANull end.
Proof.
  induction args as [|a args IH] using rev_ind; [reflexivity|]. rewrite run_snoc, lastv_snoc. arg_split a.
  - rewrite no_eq_prefix; [exact IH| |exact N]. cbn. tauto.
  - etransitivity; [|exact IH]. destruct (streq v (lit "succeed")); [reflexivity|]. destruct (streq v (lit "fail")); reflexivity.
  - etransitivity; [|exact IH]. destruct (streq v (lit "allow")); [reflexivity|]. destruct (streq v (lit "deny")); reflexivity.
  - exact IH.
  - etransitivity; [|exact IH]. apply (set_item_keeps v).
  - reflexivity.
  - rewrite N by (cbn; tauto). exact IH.
Qed.

(** The item by the last item=; the rest is the stickiness of extitem. *)
Definition kind_of (w : what) : kind :=
  match w with WTty => ITty | WRhost => IRhost | WRuser => IRuser | _ => IUser end.
Definition ext_of (w : what) : ext := match w with WGroup => EGroup | WShell => EShell | _ => ENone end.

Lemma set_item_known : forall w o, o_item (set_item (name_of w) o) = Some (kind_of w) /\
  o_ext (set_item (name_of w) o) = match ext_of w with ENone => o_ext o | x => x end.
Proof. intros [] o; split; reflexivity. Qed.

Lemma set_item_unknown : forall v o, (forall w, v <> name_of w) -> o_item (set_item v o) = None /\ o_ext (set_item v o) = o_ext o.
Proof.
  intros v o H. unfold set_item.
  destruct (streq v (lit "user")) eqn:A; [apply streq_eq in A; exfalso; apply (H WUser A)|clear A].
  destruct (streq v (lit "tty")) eqn:A; [apply streq_eq in A; exfalso; apply (H WTty A)|clear A].
  destruct (streq v (lit "rhost")) eqn:A; [apply streq_eq in A; exfalso; apply (H WRhost A)|clear A].
  destruct (streq v (lit "ruser")) eqn:A; [apply streq_eq in A; exfalso; apply (H WRuser A)|clear A].
  destruct (streq v (lit "group")) eqn:A; [apply streq_eq in A; exfalso; apply (H WGroup A)|clear A].
  destruct (streq v (lit "shell")) eqn:A; [apply streq_eq in A; exfalso; apply (H WShell A)|clear A].
  split; reflexivity.
Qed.

Lemma name_dec : forall v, (exists w, v = name_of w) \/ forall w, v <> name_of w.
Proof.
  intro v.
  destruct (streq v (lit "user")) eqn:A; [apply streq_eq in A; left; exists WUser; exact A|].
  destruct (streq v (lit "tty")) eqn:A1; [apply streq_eq in A1; left; exists WTty; exact A1|].
  destruct (streq v (lit "rhost")) eqn:A2; [apply streq_eq in A2; left; exists WRhost; exact A2|].
  destruct (streq v (lit "ruser")) eqn:A3; [apply streq_eq in A3; left; exists WRuser; exact A3|].
  destruct (streq v (lit "group")) eqn:A4; [apply streq_eq in A4; left; exists WGroup; exact A4|].
  destruct (streq v (lit "shell")) eqn:A5; [apply streq_eq in A5; left; exists WShell; exact A5|].
  right. intros [] ->; discriminate.
Qed.

Lemma run_item_kind : forall args, o_item (run args) = None /\ (forall w, lastv (lit "item=") args <> Some (name_of w)) \/
  exists w, lastv (lit "item=") args = Some (name_of w) /\ o_item (run args) = Some (kind_of w).
Proof.
  induction args as [|a args IH] using rev_ind; [left; split; [reflexivity|discriminate]|]. rewrite run_snoc, lastv_snoc. arg_split a.
  - rewrite no_eq_prefix; [exact IH| |exact N]. cbn. tauto.
  - destruct (streq v (lit "succeed")); [exact IH|]. destruct (streq v (lit "fail")); exact IH.
  - destruct (streq v (lit "allow")); [exact IH|]. destruct (streq v (lit "deny")); exact IH.
  - exact IH.
  - rewrite skip_prefix_app. clear IH. destruct (name_dec v) as [(w & ->)|V].
    + right. exists w. split; [reflexivity|]. apply set_item_known.
    + left. split; [apply set_item_unknown; exact V|]. intros w X. apply (V w). congruence.
  - exact IH.
  - rewrite N by (cbn; tauto). exact IH.
Qed.

Lemma single_snoc : forall k args a, single k (args ++ [a]) -> single k args.
Proof. intros k args a S1 x y b z c E. apply (S1 x y b z (c ++ [a])). rewrite E. repeat (rewrite <- app_assoc; cbn [app]). reflexivity. Qed.

Lemma single_last : forall k args v, single k (args ++ [k ++ v]) -> lastv k args = None.
Proof.
  intros k args v S1. destruct (lastv k args) as [w|] eqn:L; [|reflexivity]. apply lastv_spec in L. destruct L as (a & b & -> & _).
  exfalso. apply (S1 a w b v []). rewrite <- app_assoc. reflexivity.
Qed.

Lemma run_ext : forall args, single (lit "item=") args ->
  o_ext (run args) = ENone /\ (lastv (lit "item=") args = None \/ exists v, lastv (lit "item=") args = Some v /\ forall w, v = name_of w -> ext_of w = ENone) \/
  exists w, lastv (lit "item=") args = Some (name_of w) /\ o_ext (run args) = ext_of w.
Proof.
  induction args as [|a args IH] using rev_ind; intro S1; [left; split; [reflexivity|left; reflexivity]|].
  pose proof (IH (single_snoc _ _ _ S1)) as IH'. clear IH. rewrite run_snoc, lastv_snoc. arg_split a.
  - rewrite no_eq_prefix; [exact IH'| |exact N]. cbn. tauto.
  - destruct (streq v (lit "succeed")); [exact IH'|]. destruct (streq v (lit "fail")); exact IH'.
  - destruct (streq v (lit "allow")); [exact IH'|]. destruct (streq v (lit "deny")); exact IH'.
  - exact IH'.
  - rewrite skip_prefix_app. apply single_last in S1.
    assert (O : o_ext (run args) = ENone).
    { destruct IH' as [(O & _)|(w & L & _)]; [exact O|congruence]. }
    destruct (name_dec v) as [(w & ->)|V].
    + right. exists w. split; [reflexivity|]. destruct (set_item_known w (run args)) as (_ & ->). rewrite O. destruct w; reflexivity.
    + left. destruct (set_item_unknown v (run args) V) as (_ & ->). split; [exact O|]. right. exists v. split; [reflexivity|]. intros w ->. exfalso. apply (V w). reflexivity.
  - exact IH'.
  - rewrite N by (cbn; tauto). exact IH'.
Qed.

Lemma run_what : forall args w, single (lit "item=") args -> last_value (lit "item=") args (name_of w) ->
  o_item (run args) = Some (kind_of w) /\ o_ext (run args) = ext_of w.
Proof.
  intros args w S1 L. apply lastv_spec in L. split.
  - destruct (run_item_kind args) as [(_ & N)|(w' & L' & R)]; [exfalso; apply (N w L)|]. rewrite R. rewrite L in L'.
    assert (w = w') by (destruct w, w'; try reflexivity; discriminate L'). congruence.
  - destruct (run_ext args S1) as [(R & [N|(v & L' & X)])|(w' & L' & R)].
    + congruence.
    + rewrite R. symmetry. apply X. congruence.
    + rewrite R. rewrite L in L'. assert (w = w') by (destruct w, w'; try reflexivity; discriminate L'). congruence.
Qed.

(** ** The checks of the options *)

Definition same_opts (o o' : opts) : Prop :=
  o_onerr o' = o_onerr o /\ o_item o' = o_item o /\ o_ext o' = o_ext o /\ o_sense o' = o_sense o /\ o_file o' = o_file o /\ o_apply o' = o_apply o.
Definition none {A : Type} (x : option A) : bool := match x with None => true | Some _ => false end.
Lemma err_step : forall (b : bool) o o', o' = (if b then err (o_onerr o) o else o) -> same_opts o o' /\ o_retval o' = (if b && (o_retval o =? -1) then o_onerr o else o_retval o).
Proof.
  intros b o o' ->. destruct b; [|split; [repeat split; reflexivity|reflexivity]]. destruct o as [r n i x s f a]. unfold err. cbn [o_retval]. cbn [andb]. destruct (r =? -1); split; repeat split; reflexivity.
Qed.
Lemma parse_run : forall args, same_opts (run args) (parse args) /\
  o_retval (parse args) = (if (o_retval (run args) =? -1) && (none (o_item (run args)) || none (o_file (run args)) || none (o_sense (run args)) || bad_apply (o_apply (run args))) then o_onerr (run args) else o_retval (run args)).
Proof.
  intro args. unfold parse. fold (run args). cbv zeta. set (o := run args). clearbody o.
  remember (match o_item o with None => err (o_onerr o) o | Some _ => o end) as o1 eqn:E1.
  assert (K1 : o1 = (if none (o_item o) then err (o_onerr o) o else o)) by (rewrite E1; destruct (o_item o); reflexivity). clear E1. apply err_step in K1. destruct K1 as ((A1 & A2 & A3 & A4 & A5 & A6) & R1).
  remember (match o_file o1 with None => err (o_onerr o1) o1 | Some _ => o1 end) as o2 eqn:E2.
  assert (K2 : o2 = (if none (o_file o1) then err (o_onerr o1) o1 else o1)) by (rewrite E2; destruct (o_file o1); reflexivity). clear E2. apply err_step in K2. destruct K2 as ((B1 & B2 & B3 & B4 & B5 & B6) & R2).
  remember (match o_sense o2 with None => err (o_onerr o2) o2 | Some _ => o2 end) as o3 eqn:E3.
  assert (K3 : o3 = (if none (o_sense o2) then err (o_onerr o2) o2 else o2)) by (rewrite E3; destruct (o_sense o2); reflexivity). clear E3. apply err_step in K3. destruct K3 as ((C1 & C2 & C3 & C4 & C5 & C6) & R3).
  remember (if bad_apply (o_apply o3) then err (o_onerr o3) o3 else o3) as o4 eqn:E4. apply err_step in E4. destruct E4 as ((D1 & D2 & D3 & D4 & D5 & D6) & R4).
  split; [repeat split; congruence|]. rewrite R4, R3, R2, R1. rewrite ?D1, ?C6, ?C1, ?C4, ?B6, ?B4, ?B5, ?B1, ?A6, ?A4, ?A5, ?A1.
  destruct (none (o_item o)), (none (o_file o)), (none (o_sense o)), (bad_apply (o_apply o)), (o_retval o =? -1) eqn:Q; cbn [orb andb]; rewrite ?Q; try reflexivity; destruct (o_onerr o =? -1) eqn:N; rewrite ?N; reflexivity.
Qed.
Lemma parse_keeps : forall args, o_onerr (parse args) = o_onerr (run args) /\ o_item (parse args) = o_item (run args) /\ o_ext (parse args) = o_ext (run args) /\
  o_sense (parse args) = o_sense (run args) /\ o_file (parse args) = o_file (run args) /\ o_apply (parse args) = o_apply (run args).
Proof. intro args. destruct (parse_run args) as (S & _). exact S. Qed.

Lemma parse_retval : forall args,
  (o_retval (parse args) = -1 /\ o_retval (run args) = -1 /\ o_item (run args) <> None /\ o_file (run args) <> None /\ o_sense (run args) <> None /\ bad_apply (o_apply (run args)) = false) \/
  (~ (o_retval (run args) = -1 /\ o_item (run args) <> None /\ o_file (run args) <> None /\ o_sense (run args) <> None /\ bad_apply (o_apply (run args)) = false) /\
   (o_retval (parse args) = PAM_SERVICE_ERR \/ o_retval (parse args) = PAM_SUCCESS /\ In (lit "onerr=succeed") args)).
Proof.
  intro args. pose proof (run_onerr args) as O. pose proof (run_retval args) as R. destruct (parse_run args) as (_ & P).
  set (bad := none (o_item (run args)) || none (o_file (run args)) || none (o_sense (run args)) || bad_apply (o_apply (run args))) in *.
  assert (B : bad = false <-> o_item (run args) <> None /\ o_file (run args) <> None /\ o_sense (run args) <> None /\ bad_apply (o_apply (run args)) = false).
  { unfold bad. destruct (o_item (run args)), (o_file (run args)), (o_sense (run args)); cbn [none orb]; split; try discriminate; try (intros (X1 & X2 & X3 & X4); congruence); intro X; repeat split; congruence. }
  destruct R as [(R & _)|(R & _ & X)].
  - rewrite R in P. rewrite Z.eqb_refl in P. cbn [andb] in P. destruct bad.
    + right. split; [intros (_ & Y); apply B in Y; discriminate Y|]. rewrite P. exact O.
    + left. rewrite P. split; [reflexivity|]. split; [exact R|]. apply B. reflexivity.
  - apply Z.eqb_neq in R. rewrite R in P. cbn [andb] in P. right. split; [intros (Y & _); apply Z.eqb_neq in R; contradiction|]. rewrite P. exact X.
Qed.

Lemma bad_apply_of : forall args, bad_apply (o_apply (run args)) = true <-> last_value (lit "apply=") args [] \/ last_value (lit "apply=") args (lit "@").
Proof.
  intro args. rewrite run_apply, <- !lastv_spec. destruct (lastv (lit "apply=") args) as [v|]; [|split; [discriminate|intros [X|X]; discriminate]].
  destruct v as [|c v]; [split; [left; reflexivity|reflexivity]|]. cbn [apply_of]. destruct (Ascii.eqb c "@"%char) eqn:C.
  - apply Ascii.eqb_eq in C. subst c. destruct v as [|d v]; cbn [bad_apply].
    + split; [right; reflexivity|reflexivity].
    + split; [discriminate|]. intros [X|X]; discriminate.
  - cbn [bad_apply]. split; [discriminate|]. intros [X|X]; [discriminate|]. injection X as -> _. discriminate.
Qed.

Lemma configured_run : forall args, configured args <->
  (o_retval (run args) = -1 /\ o_item (run args) <> None /\ o_file (run args) <> None /\ o_sense (run args) <> None /\ bad_apply (o_apply (run args)) = false).
Proof.
  intro args. unfold configured. split.
  - intros (K & (w & I) & (f & F) & (v & V) & A1 & A2). rewrite <- lastv_spec in I, F, V.
    split; [destruct (run_retval args) as [(R & _)|(_ & N & _)]; [exact R|contradiction]|].
    split; [destruct (run_item_kind args) as [(_ & N)|(w' & _ & R)]; [exfalso; apply (N w I)|congruence]|].
    split; [rewrite run_file; congruence|].
    split; [destruct (known_sense args v K V) as (b & ->); apply run_sense in V; [congruence|exact K]|].
    destruct (bad_apply (o_apply (run args))) eqn:B; [|reflexivity]. apply bad_apply_of in B. tauto.
  - intros (R & I & F & V & B).
    assert (K : forall a, In a args -> known a) by (destruct (run_retval args) as [(_ & K)|(N & _)]; [exact K|contradiction]).
    split; [exact K|].
    split; [destruct (run_item_kind args) as [(N & _)|(w & L & _)]; [contradiction|exists w; apply lastv_spec; exact L]|].
    split; [rewrite run_file in F; destruct (lastv (lit "file=") args) as [f|] eqn:X; [exists f; apply lastv_spec; exact X|congruence]|].
    split; [destruct (o_sense (run args)) as [b|] eqn:X; [|congruence]; apply run_sense in X; [|exact K]; exists (sense_of b); apply lastv_spec; exact X|].
    split; intro Y.
    + assert (Z1 : bad_apply (o_apply (run args)) = true) by (apply bad_apply_of; left; exact Y). congruence.
    + assert (Z1 : bad_apply (o_apply (run args)) = true) by (apply bad_apply_of; right; exact Y). congruence.
Qed.

(** Unless it is configured in full and without a mistake the module does not let anybody in, except by onerr=succeed. *)
Theorem misconfigured_refused : forall E args, ~ configured args ->
  listfile E args = PAM_SERVICE_ERR \/ listfile E args = PAM_SUCCESS /\ In (lit "onerr=succeed") args.
Proof.
  intros E args N. rewrite configured_run in N. unfold listfile.
  destruct (parse_retval args) as [(_ & Y)|(_ & X)]; [contradiction|].
  replace (o_retval (parse args) =? -1) with false by (destruct X as [X|(X & _)]; rewrite X; reflexivity). cbn [negb]. exact X.
Qed.

Example misconfigured_example : ~ configured [lit "item=user"; lit "file=/l"; lit "sense=maybe"].
Proof.
  intro C. apply configured_run in C. destruct C as (R & _). discriminate R.
Qed.

(** ** The decision *)

Lemma scan_exists : forall E k x v ls, scan E k x v ls = true <-> exists l, In l ls /\ line_matches E k x v l = true.
Proof.
  intros E k x v. induction ls as [|l ls IH]; cbn [scan].
  - split; [discriminate|]. intros (l & [] & _).
  - destruct (line_matches E k x v l) eqn:M.
    + split; [intros _; exists l; split; [left; reflexivity|exact M]|reflexivity].
    + rewrite IH. split; intros (y & I & Y); exists y; (split; [|exact Y]); [right; exact I|]. destruct I as [->|I]; [congruence|exact I].
Qed.

Lemma norm_tty_bare : forall w s s', norm_tty (kind_of w) s = s' <-> bare w s s'.
Proof.
  intros w s s'. destruct w; cbn [kind_of norm_tty bare]; try (split; congruence).
  destruct (skip_prefix (lit "/dev/") s) as [r|] eqn:P.
  - apply skip_prefix_some in P. split.
    + intros <-. left. exact P.
    + intros [X|(_ & X)]; [|exfalso; apply (X r); exact P]. rewrite X in P. apply app_inv_head in P. congruence.
  - apply skip_prefix_none in P. split.
    + intros <-. right. split; [reflexivity|]. intros r X. apply P. exists r. exact X.
    + intros [X|(X & _)]; [exfalso; apply P; exists s'; exact X|congruence].
Qed.

Definition target (E : env) (w : what) (s v : cstr) : Prop := match w with WShell => e_shell E s = Some v | _ => v = s end.

Lemma matches_about : forall E w s v e, e <> [] -> target E w s v ->
  ((match ext_of w with EGroup => e_ingroup E v e | _ => streq (norm_tty (kind_of w) e) v end) = true <-> about E w s e).
Proof.
  intros E w s v e N T.
  destruct w; cbn [target ext_of about kind_of norm_tty] in *; try subst v; try (rewrite streq_eq; reflexivity); try reflexivity.
  - rewrite streq_eq. apply (norm_tty_bare WTty).
  - rewrite streq_eq, T. split; congruence.
Qed.

Lemma scan_listed : forall E w s v text, target E w s v ->
  (scan E (kind_of w) (ext_of w) v (lines_of text) = true <-> listed E w text s).
Proof.
  intros E w s v text T. rewrite scan_exists. unfold listed. split.
  - intros (l & I & M). unfold line_matches in M. exists (chomp line_end l). remember (chomp line_end l) as e eqn:Ee. destruct e as [|c e]; [discriminate|].
    assert (N : c :: e <> []) by discriminate. split; [exact N|]. split.
    + apply chomp_entry; [right; left; reflexivity|]. exists l. split; [exact I|]. symmetry. exact Ee.
    + apply (matches_about E w s v _ N T). exact M.
  - intros (e & N & I & A). apply chomp_entry in I; [|right; left; reflexivity]. destruct I as (l & I & C). exists l. split; [exact I|].
    unfold line_matches. rewrite C. apply (matches_about E w s v _ N T) in A. destruct e; [congruence|exact A].
Qed.

Lemma not_meant_iff : forall E args w, o_item (parse args) = Some (kind_of w) -> o_ext (parse args) = ext_of w ->
  not_meant E (used_apply (parse args)) = true <->
  (has_apply w /\ exists u v, e_user E = Some u /\ u <> [] /\ last_value (lit "apply=") args v /\ ~ means E v u).
Proof.
  intros E args w I X. unfold not_meant, used_apply. rewrite I, X. unfold has_apply.
  destruct (parse_keeps args) as (_ & _ & _ & _ & _ & A). rewrite A, run_apply. clear A I X.
  assert (Q : match e_user E with
     | Some (c :: u) => match (match lastv (lit "apply=") args with Some v => apply_of v | None => ANull end) with AUser v => negb (streq (c :: u) v) | AGroup g => negb (e_ingroup E (c :: u) g) | ANull => false end
     | _ => false end = true <-> exists u v, e_user E = Some u /\ u <> [] /\ last_value (lit "apply=") args v /\ ~ means E v u).
  { destruct (e_user E) as [[|c u]|].
    - split; [discriminate|]. intros (u & v & E1 & N & _). injection E1 as <-. congruence.
    - destruct (lastv (lit "apply=") args) as [v|] eqn:L.
      + assert (M : (match apply_of v with AUser v => negb (streq (c :: u) v) | AGroup g => negb (e_ingroup E (c :: u) g) | ANull => false end) = true <-> ~ means E v (c :: u)).
        { unfold means. destruct v as [|d v]; cbn [apply_of].
          - split; [|reflexivity]. intros _ [(g & Y & _)|(_ & Y)]; discriminate.
          - destruct (Ascii.eqb d "@"%char) eqn:D.
            + apply Ascii.eqb_eq in D. subst d. rewrite negb_true_iff. split.
              * intros G [(g & Y & Z1)|(Y & _)]; [injection Y as <-; congruence|]. apply (Y v). reflexivity.
              * intro H. destruct (e_ingroup E (c :: u) v) eqn:G; [|reflexivity]. exfalso. apply H. left. exists v. split; [reflexivity|exact G].
            + apply Ascii.eqb_neq in D. rewrite negb_true_iff. split.
              * intros G [(g & Y & _)|(_ & Y)]; [injection Y as Y _; contradiction|]. rewrite Y, streq_refl in G. discriminate.
              * intro H. destruct (streq (c :: u) (d :: v)) eqn:G; [|reflexivity]. exfalso. apply H. right. apply streq_eq in G.
                split; [intros g Y; injection Y as Y _; contradiction|congruence]. }
        rewrite M. split.
        * intro H. exists (c :: u), v. split; [reflexivity|]. split; [discriminate|]. split; [apply lastv_spec; exact L|exact H].
        * intros (u' & v' & E1 & _ & L' & H). apply lastv_spec in L'. congruence.
      + split; [discriminate|]. intros (u' & v' & _ & _ & L' & _). apply lastv_spec in L'. congruence.
    - split; [discriminate|]. intros (u & v & E1 & _). discriminate. }
  destruct w; cbn [kind_of ext_of];
    try (split; [destruct (e_user E) as [[|? ?]|]; discriminate|intros ([Y|Y] & _); discriminate]);
    rewrite Q; split; [intro H; split; [auto|exact H]|intros (_ & H); exact H|intro H; split; [auto|exact H]|intros (_ & H); exact H].
Qed.

(** The configured module, in terms of the spec. *)
Lemma listfile_run : forall E args w f deny, configured args -> single (lit "item=") args ->
  last_value (lit "item=") args (name_of w) -> last_value (lit "file=") args f -> last_value (lit "sense=") args (sense_of deny) ->
  listfile E args =
    if not_meant E (used_apply (parse args)) then PAM_IGNORE
    else match subject E w with
         | None => match kind_of w with IUser => PAM_SERVICE_ERR | _ => if deny then PAM_SUCCESS else PAM_AUTH_ERR end
         | Some s => by_value E (parse args) (kind_of w) deny f (Some s)
         end.
Proof.
  intros E args w f deny C S1 I F D. pose proof C as C'. apply configured_run in C'.
  destruct (parse_retval args) as [(R & _)|(N & _)]; [|contradiction].
  destruct (parse_keeps args) as (_ & PI & PX & PS & PF & _).
  destruct (run_what args w S1 I) as (RI & _). destruct C as (K & _).
  unfold listfile. rewrite R, PI, PF, PS, RI, run_file. apply lastv_spec in F. rewrite F. apply lastv_spec in D. rewrite <- run_sense in D by exact K. rewrite D.
  rewrite Z.eqb_refl. cbn [negb]. destruct (not_meant E (used_apply (parse args))); [reflexivity|].
  destruct w; cbn [kind_of item_of subject]; try (destruct (e_user E); [reflexivity|]); try (destruct (e_item E IUser); [reflexivity|]);
    try (destruct (e_user2 E); reflexivity); match goal with |- context [e_item E ?k] => destruct (e_item E k); reflexivity end.
Qed.

(** With a proper configuration and a safe, readable list: yes or no by whether the subject is listed. *)
Theorem list_decides : forall E args w f deny s s' text,
  configured args -> single (lit "item=") args ->
  last_value (lit "item=") args (name_of w) -> last_value (lit "file=") args f -> last_value (lit "sense=") args (sense_of deny) ->
  (has_apply w -> forall u v, e_user E = Some u -> u <> [] -> last_value (lit "apply=") args v -> means E v u) ->
  subject E w = Some s -> bare w s s' -> s' <> [] -> (w = WShell -> e_shell E s' <> None) ->
  e_lstat E f = Some (false, true) -> e_read E f = Some text ->
  (listed E w text s' -> listfile E args = if deny then PAM_AUTH_ERR else PAM_SUCCESS) /\
  (~ listed E w text s' -> listfile E args = if deny then PAM_SUCCESS else PAM_AUTH_ERR).
Proof.
  intros E args w f deny s s' text C S1 I F D A SU B N SH L T.
  rewrite (listfile_run E args w f deny C S1 I F D).
  destruct (parse_keeps args) as (_ & PI & PX & _). destruct (run_what args w S1 I) as (RI & RX). rewrite RI in PI. rewrite RX in PX.
  destruct (not_meant E (used_apply (parse args))) eqn:M.
  { apply (not_meant_iff E args w PI PX) in M. destruct M as (HA & u & v & U & UN & LV & NM). exfalso. apply NM. apply (A HA u v U UN LV). }
  rewrite SU. unfold by_value. apply norm_tty_bare in B. rewrite B.
  assert (G : exists v, looked_for E (parse args) s' = Some v /\ target E w s' v).
  { unfold looked_for. rewrite PX. destruct w; cbn [ext_of target]; try (exists s'; split; reflexivity).
    destruct (e_shell E s') as [v|] eqn:X; [exists v; split; reflexivity|]. exfalso. apply SH; reflexivity. }
  destruct G as (v & G & TG). destruct s' as [|c0 s0]; [congruence|]. rewrite G. pose proof (scan_listed E w (c0 :: s0) v text TG) as SL. unfold by_file. rewrite L. cbn [orb negb]. rewrite T, PX.
  destruct (scan E (kind_of w) (ext_of w) v (lines_of text)).
  - split; [intros _; destruct deny; reflexivity|]. intro X. exfalso. apply X. apply SL. reflexivity.
  - split; [intro X; apply SL in X; discriminate|]. intros _. destruct deny; reflexivity.
Qed.

(** A list that others can write, or that is no regular file, is never used, whatever onerr= says. *)
Theorem unsafe_list_refused : forall E args w f deny s s' wother regular,
  configured args -> single (lit "item=") args ->
  last_value (lit "item=") args (name_of w) -> last_value (lit "file=") args f -> last_value (lit "sense=") args (sense_of deny) ->
  (has_apply w -> forall u v, e_user E = Some u -> u <> [] -> last_value (lit "apply=") args v -> means E v u) ->
  subject E w = Some s -> bare w s s' -> s' <> [] -> (w = WShell -> e_shell E s' <> None) ->
  e_lstat E f = Some (wother, regular) -> wother = true \/ regular = false -> listfile E args = PAM_AUTH_ERR.
Proof.
  intros E args w f deny s s' wo rg C S1 I F D A SU B N SH L U.
  rewrite (listfile_run E args w f deny C S1 I F D).
  destruct (parse_keeps args) as (_ & PI & PX & _). destruct (run_what args w S1 I) as (RI & RX). rewrite RI in PI. rewrite RX in PX.
  destruct (not_meant E (used_apply (parse args))) eqn:M.
  { apply (not_meant_iff E args w PI PX) in M. destruct M as (HA & u & v & UU & UN & LV & NM). exfalso. apply NM. apply (A HA u v UU UN LV). }
  rewrite SU. unfold by_value. apply norm_tty_bare in B. rewrite B. destruct s' as [|c0 s0]; [congruence|].
  assert (G : exists v, looked_for E (parse args) (c0 :: s0) = Some v).
  { unfold looked_for. rewrite PX. destruct w; cbn [ext_of]; try (eexists; reflexivity).
    destruct (e_shell E (c0 :: s0)) as [v|] eqn:X; [exists v; reflexivity|]. exfalso. apply SH; reflexivity. }
  destruct G as (v & ->). unfold by_file. rewrite L. replace (wo || negb rg) with true; [reflexivity|]. symmetry. destruct U as [->| ->]; [reflexivity|apply orb_true_r].
Qed.

(** Nothing to look for is nothing listed: an item that is not set, or is empty without /dev/; without any user name the module gives an error. *)
Theorem nothing_to_look_for : forall E args w f deny,
  configured args -> single (lit "item=") args ->
  last_value (lit "item=") args (name_of w) -> last_value (lit "file=") args f -> last_value (lit "sense=") args (sense_of deny) ->
  (has_apply w -> forall u v, e_user E = Some u -> u <> [] -> last_value (lit "apply=") args v -> means E v u) ->
  (forall s, subject E w = Some s -> bare w s [] -> listfile E args = if deny then PAM_SUCCESS else PAM_AUTH_ERR) /\
  (subject E w = None -> w = WTty \/ w = WRhost \/ w = WRuser -> listfile E args = if deny then PAM_SUCCESS else PAM_AUTH_ERR) /\
  (subject E w = None -> w = WUser \/ w = WGroup \/ w = WShell -> listfile E args = PAM_SERVICE_ERR).
Proof.
  intros E args w f deny C S1 I F D A.
  rewrite (listfile_run E args w f deny C S1 I F D).
  destruct (parse_keeps args) as (_ & PI & PX & _). destruct (run_what args w S1 I) as (RI & RX). rewrite RI in PI. rewrite RX in PX.
  destruct (not_meant E (used_apply (parse args))) eqn:M.
  { apply (not_meant_iff E args w PI PX) in M. destruct M as (HA & u & v & UU & UN & LV & NM). exfalso. apply NM. apply (A HA u v UU UN LV). }
  split; [|split].
  - intros s -> B. unfold by_value. apply norm_tty_bare in B. rewrite B. reflexivity.
  - intros -> [->|[->| ->]]; reflexivity.
  - intros -> [->|[->| ->]]; reflexivity.
Qed.

Lemma run_onerr_last : forall args, (forall a, In a args -> known a) ->
  o_onerr (run args) = match lastv (lit "onerr=") args with Some v => if streq v (lit "succeed") then PAM_SUCCESS else PAM_SERVICE_ERR | None => PAM_SERVICE_ERR end.
Proof.
  induction args as [|a args IH] using rev_ind; intro K; [reflexivity|]. rewrite run_snoc, lastv_snoc.
  assert (K1 : forall x, In x args -> known x) by (intros x X; apply K; apply in_or_app; left; exact X).
  specialize (IH K1). assert (Ka : known a) by (apply K; apply in_or_app; right; left; reflexivity). clear K K1. arg_split a.
  - rewrite no_eq_prefix; [exact IH| |exact N]. cbn. tauto.
  - rewrite skip_prefix_app. clear IH. destruct Ka as [X|[X|[X|[X|[X|[(w & X)|[(w & X)|(w & X)]]]]]]]; try discriminate X.
    + exfalso. apply X. cbn. tauto.
    + change (lit "onerr=succeed") with (lit "onerr=" ++ lit "succeed")%list in X. apply app_inv_head in X. subst v. reflexivity.
    + change (lit "onerr=fail") with (lit "onerr=" ++ lit "fail")%list in X. apply app_inv_head in X. subst v. reflexivity.
  - etransitivity; [|exact IH]. destruct (streq v (lit "allow")); [reflexivity|]. destruct (streq v (lit "deny")); reflexivity.
  - exact IH.
  - destruct (set_item_keeps v (run args)) as (_ & O & _). rewrite O. exact IH.
  - exact IH.
  - rewrite N by (cbn; tauto). exact IH.
Qed.

(** A list that is not there or cannot be read, and a subject whose shell is asked for and who is no known user: the last onerr= decides. *)
Theorem missing_list_onerr : forall E args w f deny s s',
  configured args -> single (lit "item=") args ->
  last_value (lit "item=") args (name_of w) -> last_value (lit "file=") args f -> last_value (lit "sense=") args (sense_of deny) ->
  (has_apply w -> forall u v, e_user E = Some u -> u <> [] -> last_value (lit "apply=") args v -> means E v u) ->
  subject E w = Some s -> bare w s s' -> s' <> [] ->
  e_lstat E f = None \/ (e_lstat E f = Some (false, true) /\ e_read E f = None) \/ (w = WShell /\ e_shell E s' = None) ->
  (last_value (lit "onerr=") args (lit "succeed") -> listfile E args = PAM_SUCCESS) /\
  (~ last_value (lit "onerr=") args (lit "succeed") -> listfile E args = PAM_SERVICE_ERR).
Proof.
  intros E args w f deny s s' C S1 I F D A SU B N H.
  rewrite (listfile_run E args w f deny C S1 I F D).
  destruct (parse_keeps args) as (PO & PI & PX & _). destruct (run_what args w S1 I) as (RI & RX). rewrite RI in PI. rewrite RX in PX.
  destruct (not_meant E (used_apply (parse args))) eqn:M.
  { apply (not_meant_iff E args w PI PX) in M. destruct M as (HA & u & v & UU & UN & LV & NM). exfalso. apply NM. apply (A HA u v UU UN LV). }
  rewrite SU. unfold by_value. apply norm_tty_bare in B. rewrite B. destruct s' as [|c0 s0]; [congruence|].
  assert (R : match looked_for E (parse args) (c0 :: s0) with None => o_onerr (parse args) | Some v => by_file E (parse args) (kind_of w) deny f v end = o_onerr (parse args)).
  { destruct (looked_for E (parse args) (c0 :: s0)) as [v|] eqn:G; [|reflexivity]. unfold by_file. destruct H as [->|[(-> & ->)|(-> & Y)]]; [reflexivity|reflexivity|].
    unfold looked_for in G. rewrite PX in G. cbn [ext_of] in G. congruence. }
  rewrite R, PO, run_onerr_last by apply C. rewrite <- lastv_spec. destruct (lastv (lit "onerr=") args) as [v|]; [|split; [discriminate|reflexivity]].
  destruct (streq v (lit "succeed")) eqn:V.
  - apply streq_eq in V. subst v. split; [reflexivity|]. intro X. exfalso. apply X. reflexivity.
  - split; [|reflexivity]. intro X. injection X as ->. rewrite streq_refl in V. discriminate V.
Qed.

(** apply=: the module has no opinion on users it is not meant for. *)
Theorem not_meant_ignored : forall E args w u v,
  configured args -> single (lit "item=") args -> last_value (lit "item=") args (name_of w) -> has_apply w ->
  e_user E = Some u -> u <> [] -> last_value (lit "apply=") args v -> (listfile E args = PAM_IGNORE <-> ~ means E v u).
Proof.
  intros E args w u v C S1 I HA U UN LV. pose proof C as (K & _ & (f & F) & (sv & D) & _).
  assert (D' : exists deny, sv = sense_of deny) by (apply (known_sense args); [exact K|apply lastv_spec; exact D]). destruct D' as (deny & ->).
  rewrite (listfile_run E args w f deny C S1 I F D).
  destruct (parse_keeps args) as (PO & PI & PX & _). destruct (run_what args w S1 I) as (RI & RX). rewrite RI in PI. rewrite RX in PX.
  destruct (not_meant E (used_apply (parse args))) eqn:M.
  - split; [|reflexivity]. intros _. apply (not_meant_iff E args w PI PX) in M. destruct M as (_ & u' & v' & U' & _ & LV' & NM).
    apply lastv_spec in LV. apply lastv_spec in LV'. rewrite U in U'. injection U' as <-. rewrite LV in LV'. injection LV' as <-. exact NM.
  - split.
    + intro R. exfalso. assert (O : o_onerr (parse args) = PAM_SERVICE_ERR \/ o_onerr (parse args) = PAM_SUCCESS).
      { rewrite PO. destruct (run_onerr args) as [O|(O & _)]; [left; exact O|right; exact O]. }
      assert (BF : forall v0, by_file E (parse args) (kind_of w) deny f v0 <> PAM_IGNORE).
      { intro v0. unfold by_file. destruct (e_lstat E f) as [(wo, rg)|]; [|destruct O as [O|O]; rewrite O; discriminate].
        destruct (wo || negb rg); [discriminate|]. destruct (e_read E f); [|destruct O as [O|O]; rewrite O; discriminate].
        match goal with |- context [if ?b then _ else _] => destruct b end; discriminate. }
      destruct (subject E w) as [s|].
      * unfold by_value in R. destruct (norm_tty (kind_of w) s) as [|c0 s0]; [destruct deny; discriminate R|].
        destruct (looked_for E (parse args) (c0 :: s0)) as [v0|]; [apply (BF v0 R)|]. destruct O as [O|O]; rewrite O in R; discriminate R.
      * destruct (kind_of w); destruct deny; discriminate R.
    + intro NM. assert (X : not_meant E (used_apply (parse args)) = true); [|congruence].
      apply (not_meant_iff E args w PI PX). split; [exact HA|]. exists u, v. auto.
Qed.

(** Without onerr=succeed, success has a reason in the list: the subject is in a list of those allowed, or is not in a
    list of those denied, or there is no subject to deny. *)
Theorem success_has_reason : forall E args, listfile E args = PAM_SUCCESS -> ~ In (lit "onerr=succeed") args -> single (lit "item=") args ->
  configured args /\ exists w f deny,
    last_value (lit "item=") args (name_of w) /\ last_value (lit "file=") args f /\ last_value (lit "sense=") args (sense_of deny) /\
    ((deny = true /\ (subject E w = None \/ exists s, subject E w = Some s /\ bare w s [])) \/
     exists s s' text, subject E w = Some s /\ bare w s s' /\ s' <> [] /\ e_lstat E f = Some (false, true) /\ e_read E f = Some text /\
       (listed E w text s' <-> deny = false)).
Proof.
  intros E args R NO S1.
  assert (C : configured args).
  { destruct (parse_retval args) as [(_ & Y)|(N & _)]; [apply configured_run; exact Y|]. exfalso.
    assert (NC : ~ configured args) by (intro Y; apply N; apply configured_run; exact Y).
    destruct (misconfigured_refused E args NC) as [X|(_ & X)]; [rewrite X in R; discriminate R|contradiction]. }
  split; [exact C|]. pose proof C as (K & (w & I) & (f & F) & (sv & D) & _).
  assert (D' : exists deny, sv = sense_of deny) by (apply (known_sense args); [exact K|apply lastv_spec; exact D]). destruct D' as (deny & ->).
  exists w, f, deny. split; [exact I|]. split; [exact F|]. split; [exact D|].
  rewrite (listfile_run E args w f deny C S1 I F D) in R.
  destruct (parse_keeps args) as (PO & PI & PX & _). destruct (run_what args w S1 I) as (RI & RX). rewrite RI in PI. rewrite RX in PX.
  assert (O : o_onerr (parse args) = PAM_SERVICE_ERR) by (rewrite PO; destruct (run_onerr args) as [O|(_ & O)]; [exact O|contradiction]).
  destruct (not_meant E (used_apply (parse args))); [discriminate R|]. destruct (subject E w) as [s|] eqn:SU.
  - unfold by_value in R. destruct (norm_tty (kind_of w) s) as [|c0 s0] eqn:NT.
    + left. destruct deny; [|discriminate R]. split; [reflexivity|]. right. exists s. split; [reflexivity|]. apply norm_tty_bare. exact NT.
    + right. exists s, (c0 :: s0). destruct (looked_for E (parse args) (c0 :: s0)) as [v|] eqn:G; [|rewrite O in R; discriminate R].
      unfold by_file in R. rewrite O in R. destruct (e_lstat E f) as [(wo, rg)|]; [|discriminate R]. destruct wo, rg; try discriminate R. cbn [orb negb] in R.
      destruct (e_read E f) as [text|]; [|discriminate R]. exists text. split; [reflexivity|]. split; [apply norm_tty_bare; exact NT|]. split; [discriminate|].
      split; [reflexivity|]. split; [reflexivity|].
      assert (TG : target E w (c0 :: s0) v).
      { unfold looked_for in G. rewrite PX in G. destruct w; cbn [ext_of target] in *; try (injection G as <-; reflexivity). exact G. }
      rewrite <- (scan_listed E w (c0 :: s0) v text TG). rewrite PX in R.
      destruct (scan E (kind_of w) (ext_of w) v (lines_of text)); destruct deny; cbn in R; try discriminate R; split; intro; try reflexivity; discriminate.
  - left. destruct w; cbn [kind_of] in R; try discriminate R; (destruct deny; [|discriminate R]); (split; [reflexivity|left; reflexivity]).
Qed.

(** ** Examples *)

Definition exE : env :=
  mkEnv (Some (lit "eve")) None (fun k => match k with ITty => Some (lit "/dev/tty1") | _ => None end) (fun _ => Some (lit "/bin/sh"))
    (fun u g => streq u (lit "eve") && streq g (lit "staff")) (fun _ => Some (false, true)) (fun _ => Some (lit "bob" ++ chr 13 :: c_nl :: c_nl :: lit "eve" ++ [c_nl])%list).
Definition exArgs : list cstr := [lit "item=user"; lit "sense=deny"; lit "file=/l"; lit "quiet"].

Example deny_example : listfile exE exArgs = PAM_AUTH_ERR /\ listed exE WUser (lit "bob" ++ chr 13 :: c_nl :: c_nl :: lit "eve" ++ [c_nl])%list (lit "eve") /\
  configured exArgs /\ single (lit "item=") exArgs.
Proof.
  split; [vm_compute; reflexivity|]. split.
  - exists (lit "eve"). split; [discriminate|]. split; [|reflexivity]. apply chomp_entry; [right; left; reflexivity|].
    exists (lit "eve" ++ [c_nl])%list. split; [right; right; left; reflexivity|reflexivity].
  - split.
    + apply configured_run. vm_compute. repeat split; discriminate.
    + intros a x b y c E. destruct a as [|a1 [|a2 [|a3 [|a4 [|a5 a]]]]]; cbn [app] in E; try discriminate E.
      * injection E as _ E. destruct b as [|b1 [|b2 [|b3 b]]]; try discriminate E. cbn [app] in E. injection E as _ _ _ E. destruct b; discriminate E.
Qed.

Example apply_example : listfile exE [lit "item=tty"; lit "sense=allow"; lit "file=/l"; lit "apply=@wheel"] = PAM_IGNORE /\
  listfile exE [lit "item=tty"; lit "sense=allow"; lit "file=/l"; lit "apply=@staff"] = PAM_AUTH_ERR /\
  listfile exE [lit "item=shell"; lit "sense=allow"; lit "file=/l"] = PAM_AUTH_ERR.
Proof. vm_compute. auto. Qed.

Example nothing_example : listfile exE [lit "item=rhost"; lit "sense=deny"; lit "file=/l"] = PAM_SUCCESS /\
  listfile exE [lit "item=rhost"; lit "sense=allow"; lit "file=/l"] = PAM_AUTH_ERR /\ subject exE WRhost = None /\
  listfile (mkEnv None None (e_item exE) (e_shell exE) (e_ingroup exE) (e_lstat exE) (e_read exE)) exArgs = PAM_SERVICE_ERR /\
  listfile (mkEnv (Some []) None (e_item exE) (e_shell exE) (e_ingroup exE) (e_lstat exE) (e_read exE)) exArgs = PAM_SUCCESS.
Proof. vm_compute. auto. Qed.

Example missing_example :
  let E := mkEnv (Some (lit "eve")) None (e_item exE) (e_shell exE) (e_ingroup exE) (fun _ => None) (e_read exE) in
  listfile E exArgs = PAM_SERVICE_ERR /\ listfile E (exArgs ++ [lit "onerr=fail"; lit "onerr=succeed"])%list = PAM_SUCCESS.
Proof. vm_compute. auto. Qed.

(** ** What does not hold *)

(** "The last item= counts": a group= or shell before it goes on counting, here so that a denied user gets in. *)
Theorem last_item_counts_refuted : exists E args text, configured args /\ last_value (lit "item=") args (lit "user") /\ last_value (lit "sense=") args (lit "deny") /\
  e_user E = Some (lit "eve") /\ last_value (lit "file=") args (lit "/l") /\ e_lstat E (lit "/l") = Some (false, true) /\ e_read E (lit "/l") = Some text /\
  listed E WUser text (lit "eve") /\ listfile E args = PAM_SUCCESS.
Proof.
  exists exE, [lit "item=shell"; lit "item=user"; lit "sense=deny"; lit "file=/l"], (lit "bob" ++ chr 13 :: c_nl :: c_nl :: lit "eve" ++ [c_nl])%list.
  split; [apply configured_run; vm_compute; repeat split; discriminate|].
  split; [apply lastv_spec; vm_compute; reflexivity|]. split; [apply lastv_spec; vm_compute; reflexivity|]. split; [reflexivity|].
  split; [apply lastv_spec; vm_compute; reflexivity|]. split; [reflexivity|]. split; [reflexivity|].
  split; [apply deny_example|]. vm_compute. reflexivity.
Qed.

(** "The order of the options does not matter": onerr= counts only for the mistakes after it. *)
Theorem order_irrelevant_refuted : exists E args args', Permutation args args' /\ listfile E args = PAM_SERVICE_ERR /\ listfile E args' = PAM_SUCCESS.
Proof.
  exists exE, [lit "sense=denied"; lit "onerr=succeed"], [lit "onerr=succeed"; lit "sense=denied"]. split; [apply perm_swap|]. vm_compute. auto.
Qed.

(** "With apply=@group the module has no opinion on anyone outside the group": not when the user is not known (yet). *)
Theorem apply_limits_refuted : exists E args g, configured args /\ last_value (lit "apply=") args ("@"%char :: g) /\ (forall u, e_ingroup E u g = false) /\
  listfile E args = PAM_AUTH_ERR.
Proof.
  exists (mkEnv None None (fun k => match k with ITty => Some (lit "tty1") | _ => None end) (fun _ => None) (fun _ _ => false) (fun _ => Some (false, true)) (fun _ => Some [])),
    [lit "item=tty"; lit "sense=allow"; lit "file=/l"; lit "apply=@staff"], (lit "staff").
  split; [apply configured_run; vm_compute; repeat split; discriminate|]. split; [apply lastv_spec; vm_compute; reflexivity|].
  split; [reflexivity|]. vm_compute. reflexivity.
Qed.

Print Assumptions misconfigured_refused.
Print Assumptions list_decides.
Print Assumptions unsafe_list_refused.
Print Assumptions not_meant_ignored.
Print Assumptions success_has_reason.
Print Assumptions last_item_counts_refuted.
Print Assumptions order_irrelevant_refuted.
Print Assumptions apply_limits_refuted.
Print Assumptions nothing_to_look_for.
Print Assumptions missing_list_onerr.
