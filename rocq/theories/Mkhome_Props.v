(** Theorems about pam_mkhomedir and its helper. *)
From Coq Require Import String Ascii List Arith ZArith Bool Lia.
From Verif Require Import Base Num_Model Str_Model Str_Facts Opt_Model Opt_Facts Flconf_Props Mkhome_Model.
Import ListNotations.

(** ** What the calls do, in order *)
Definition where_ (e : event) : path := match e with EMkdir p | ESymlink p _ | ECreate p | EChmod p _ | EChown p _ _ | EWrite p _ => p end.
Definition creates (e : event) : Prop := match e with EMkdir _ | ESymlink _ _ | ECreate _ => True | _ => False end.
(** The files after some calls. *)
Definition after (l : list event) (f : files) : files := fold_left (fun f e => apply e f) l f.
(** A directory of root that nobody else may use. *)
Definition private (o : option node) : Prop := o = Some (mkNode KDir 448 0 0).
Lemma peq_iff : forall p q, peq p q = true <-> p = q.
Proof.
  induction p as [|a p IH]; intros [|b q]; cbn [peq]; try (split; [discriminate|congruence]); [tauto|]. rewrite andb_true_iff, streq_eq, IH. split; [intros (-> & ->); reflexivity|intro H; injection H; auto].
Qed.
Lemma peq_refl : forall p, peq p p = true. Proof. intro p. apply peq_iff. reflexivity. Qed.
Lemma set_same : forall p n f, set_node p n f p = Some n. Proof. intros. unfold set_node. rewrite peq_refl. reflexivity. Qed.
Lemma set_other : forall p n f q, q <> p -> set_node p n f q = f q.
Proof. intros p n f q H. unfold set_node. destruct (peq q p) eqn:E; [apply peq_iff in E; contradiction|reflexivity]. Qed.
Lemma apply_other : forall e f q, q <> where_ e -> apply e f q = f q.
Proof. intros e f q H. destruct e; cbn [apply where_] in *; try (apply set_other; exact H); destruct (f p); try reflexivity; apply set_other; exact H. Qed.
Lemma after_app : forall a b f, after (a ++ b) f = after b (after a f). Proof. intros. unfold after. apply fold_left_app. Qed.

(** What holds of each call, given the calls before it. *)
Section Each.
Context (P : list event -> event -> Prop).
Fixpoint each (pre l : list event) : Prop := match l with [] => True | e :: l => P pre e /\ each (pre ++ [e])%list l end.
Lemma each_app : forall l1 l2 pre, each pre (l1 ++ l2) <-> each pre l1 /\ each (pre ++ l1) l2.
Proof. induction l1 as [|e l1 IH]; intros l2 pre; cbn [app each]; [rewrite app_nil_r; tauto|]. rewrite IH, <- app_assoc. cbn [app]. tauto. Qed.
Lemma each_split : forall l a e b, each [] l -> l = (a ++ e :: b)%list -> P a e.
Proof. intros l a e b H ->. apply each_app in H. cbn [each app] in H. tauto. Qed.
End Each.
(** A call is well placed: everything above its path, down from the home directory, is still private; what it makes was not there; what it changes
    was made by a call before; and it gives things to nobody but the user. *)
Definition placed (C : conf) (home : path) (f0 : files) (pre : list event) (e : event) : Prop :=
  (exists x, where_ e = home ++ x)%list /\ (forall y z, where_ e = home ++ y ++ z -> z <> [] -> private (after pre f0 (home ++ y)))%list /\ (creates e -> after pre f0 (where_ e) = None) /\
  (~ creates e -> exists c, In c pre /\ creates c /\ where_ c = where_ e) /\ match e with EChown _ u g => u = c_uid C /\ g = c_gid C | _ => True end.
Definition inv (C : conf) (home : path) (f0 : files) (t : state) : Prop := s_files t = after (s_trace t) f0 /\ each (placed C home f0) [] (s_trace t).
Lemma emit_inv : forall C home f0 e t, inv C home f0 t -> placed C home f0 (s_trace t) e -> inv C home f0 (emit e t).
Proof. intros C home f0 e t (F & T) P. split; cbn [emit s_files s_trace]; [rewrite after_app, F; reflexivity|]. apply each_app. split; [exact T|]. cbn [each app]. auto. Qed.
Definition above (home p : path) (t : state) : Prop := forall y z, (p = home ++ y ++ z)%list -> z <> [] -> private (s_files t (home ++ y)%list).
Definition under (p q : path) : Prop := exists x, q = (p ++ x)%list.
(** The work at [p] keeps the rules and changes nothing elsewhere. *)
Definition keeps (C : conf) (home : path) (f0 : files) (p : path) (t t' : state) : Prop :=
  inv C home f0 t' /\ (forall q, ~ under p q -> s_files t' q = s_files t q) /\ exists l, s_trace t' = (s_trace t ++ l)%list.
Lemma keeps_refl : forall C home f0 p t, inv C home f0 t -> keeps C home f0 p t t.
Proof. intros C home f0 p t I. split; [exact I|]. split; [reflexivity|]. exists []. rewrite app_nil_r. reflexivity. Qed.
Lemma keeps_trans : forall C home f0 p a b c, keeps C home f0 p a b -> keeps C home f0 p b c -> keeps C home f0 p a c.
Proof. intros C home f0 p a b c (_ & F1 & l1 & T1) (I & F2 & l2 & T2). split; [exact I|]. split; [intros q N; rewrite F2, F1 by exact N; reflexivity|]. exists (l1 ++ l2)%list. rewrite T2, T1, app_assoc. reflexivity. Qed.
Lemma keeps_child : forall C home f0 p n a b, keeps C home f0 (p ++ [n]) a b -> keeps C home f0 p a b.
Proof. intros C home f0 p n a b (I & F & T). split; [exact I|]. split; [|exact T]. intros q N. apply F. intros (x & ->). apply N. exists ([n] ++ x)%list. rewrite app_assoc. reflexivity. Qed.
Lemma keeps_emit : forall C home f0 p t e, inv C home f0 t -> where_ e = p -> (exists y, p = home ++ y)%list -> above home p t ->
  (creates e -> s_files t p = None) -> (~ creates e -> exists c, In c (s_trace t) /\ creates c /\ where_ c = p) -> match e with EChown _ u g => u = c_uid C /\ g = c_gid C | _ => True end ->
  keeps C home f0 p t (emit e t).
Proof.
  intros C home f0 p t e I W H A CR NC O. split.
  - apply emit_inv; [exact I|]. destruct I as (F & _). unfold placed. rewrite W, <- F. split; [exact H|]. split; [exact A|]. auto.
  - split; [|exists [e]; reflexivity]. intros q N. cbn [emit s_files]. apply apply_other. rewrite W. intros ->. apply N. exists []. rewrite app_nil_r. reflexivity.
Qed.
Lemma not_longer : forall (p q : path), (length q < length p)%nat -> ~ under p q.
Proof. intros p q L (x & ->). rewrite app_length in L. lia. Qed.
Lemma above_keeps : forall C home f0 p t t', above home p t -> keeps C home f0 p t t' -> above home p t'.
Proof.
  intros C home f0 p t t' A (_ & F & _) y z E N. rewrite F; [exact (A y z E N)|]. apply not_longer. rewrite E, !app_length. destruct z; [contradiction|]. cbn. lia.
Qed.
Lemma above_child : forall home p n t, above home p t -> private (s_files t p) -> above home (p ++ [n]) t.
Proof.
  intros home p n t A P y z E N. destruct (exists_last N) as (z' & m & ->). rewrite !app_assoc in E. apply app_inj_tail in E. destruct E as (-> & ->). rewrite <- app_assoc in A.
  destruct z' as [|k z']; [rewrite app_nil_r in P; exact P|]. apply (A y (k :: z')); [reflexivity|discriminate].
Qed.
Definition home_of (home p : path) : Prop := exists y, (p = home ++ y)%list.
Lemma home_child : forall home p n, home_of home p -> home_of home (p ++ [n]). Proof. intros home p n (y & ->). exists (y ++ [n])%list. rewrite app_assoc. reflexivity. Qed.
Definition good_create (C : conf) (home : path) (f0 : files) (cr : path -> Z -> option src -> option src -> state -> res (Z * state)) : Prop :=
  forall p dmode s v t rc t', cr p dmode s v t = Ok (rc, t') -> inv C home f0 t -> home_of home p -> above home p t -> keeps C home f0 p t t'.
Lemma made_here : forall t e p, creates e -> where_ e = p -> exists c, In c (s_trace (emit e t)) /\ creates c /\ where_ c = p.
Proof. intros t e p C W. exists e. cbn [emit s_trace]. split; [apply in_or_app; right; left; reflexivity|auto]. Qed.
Lemma made_still : forall t e p, (exists c, In c (s_trace t) /\ creates c /\ where_ c = p) -> exists c, In c (s_trace (emit e t)) /\ creates c /\ where_ c = p.
Proof. intros t e p (c & I & K). exists c. cbn [emit s_trace]. split; [apply in_or_app; left; exact I|exact K]. Qed.
Ltac placed_tac := apply keeps_emit; [first [assumption|match goal with K : keeps ?C ?h ?f ?p _ ?t |- inv ?C ?h ?f ?t => exact (proj1 K) end]|reflexivity|assumption|assumption
  |first [intros _; assumption|let X := fresh in intro X; destruct X]|first [intros _; assumption|let X := fresh in intro X; exfalso; apply X; exact Logic.I]|first [exact Logic.I|split; reflexivity]].
Lemma copy_entry_good : forall C home f0 cr, good_create C home f0 cr -> forall p dmode n s v t rc t', copy_entry cr C p dmode n s v t = Ok (rc, t') ->
  inv C home f0 t -> home_of home p -> above home p t -> private (s_files t p) -> keeps C home f0 (p ++ [n]) t t'.
Proof.
  intros C home f0 cr G p dmode n s v t rc t' H I HP A PR. unfold copy_entry in H. set (q := (p ++ [n])%list) in *.
  assert (HQ : home_of home q) by (apply home_child; exact HP). assert (AQ : above home q t) by (apply above_child; assumption). clearbody q. clear A PR HP p.
  destruct (c_fails C CAlloc q); [injection H as _ <-; apply keeps_refl; exact I|]. destruct (c_fails C CLstat q); [injection H as _ <-; apply keeps_refl; exact I|].
  destruct s as [es|mode text|target to|].
  - destruct v as [v|]; [destruct (c_fails C CAllocV q); [injection H as _ <-; apply keeps_refl; exact I|]|]; exact (G _ _ _ _ _ _ _ H I HQ AQ).
  - destruct (c_fails C COpen q); [injection H as _ <-; apply keeps_refl; exact I|]. destruct (s_files t q) eqn:FQ; [injection H as _ <-; apply keeps_refl; exact I|].
    destruct (c_fails C CCreate q); [injection H as _ <-; apply keeps_refl; exact I|].
    assert (K1 : keeps C home f0 q t (emit (ECreate q) t)) by (placed_tac).
    pose proof (made_here t (ECreate q) q Logic.I eq_refl) as M1. set (t1 := emit (ECreate q) t) in *. clearbody t1. pose proof (above_keeps _ _ _ _ _ _ AQ K1) as A1.
    destruct (c_fails C CFchmod q); [injection H as _ <-; exact K1|].
    assert (K2 : keeps C home f0 q t1 (emit (EChmod q (masked C (Z.lor mode 146))) t1)) by (placed_tac).
    pose proof (made_still t1 (EChmod q (masked C (Z.lor mode 146))) q M1) as M2. set (t2 := emit (EChmod q _) t1) in *. clearbody t2. pose proof (above_keeps _ _ _ _ _ _ A1 K2) as A2.
    destruct (c_fails C CFchown q); [injection H as _ <-; exact (keeps_trans _ _ _ _ _ _ _ K1 K2)|].
    assert (K3 : keeps C home f0 q t2 (emit (EChown q (c_uid C) (c_gid C)) t2)) by (placed_tac).
    pose proof (made_still t2 (EChown q (c_uid C) (c_gid C)) q M2) as M3. set (t3 := emit (EChown q _ _) t2) in *. clearbody t3. pose proof (above_keeps _ _ _ _ _ _ A2 K3) as A3.
    assert (K4 : forall x, keeps C home f0 q t3 (emit (EWrite q x) t3)) by (intro x; placed_tac).
    destruct (c_fails C CCopy q); injection H as _ <-; exact (keeps_trans _ _ _ _ _ _ _ K1 (keeps_trans _ _ _ _ _ _ _ K2 (keeps_trans _ _ _ _ _ _ _ K3 (K4 _)))).
  - destruct (c_fails C CReadlink q); [injection H as _ <-; apply keeps_refl; exact I|]. destruct (s_files t q) eqn:FQ; [injection H as _ <-; apply keeps_refl; exact I|].
    destruct (c_fails C CSymlink q); [injection H as _ <-; apply keeps_refl; exact I|].
    assert (K1 : keeps C home f0 q t (emit (ESymlink q target) t)) by (placed_tac).
    pose proof (made_here t (ESymlink q target) q Logic.I eq_refl) as M1. set (t1 := emit (ESymlink q target) t) in *. clearbody t1. pose proof (above_keeps _ _ _ _ _ _ AQ K1) as A1.
    destruct (c_fails C CLchown q); injection H as _ <-; [exact K1|]. apply (keeps_trans _ _ _ _ _ _ _ K1). placed_tac.
  - injection H as _ <-. apply keeps_refl; exact I.
Qed.
Lemma copy_entries_good : forall C home f0 cr, good_create C home f0 cr -> forall p dmode es v t rc t', copy_entries cr C p dmode es v t = Ok (rc, t') ->
  inv C home f0 t -> home_of home p -> above home p t -> private (s_files t p) -> keeps C home f0 p t t' /\ s_files t' p = s_files t p.
Proof.
  intros C home f0 cr G p dmode es v. induction es as [|[n s] es IH]; intros t rc t' H I HP A PR; cbn [copy_entries] in H.
  - injection H as _ <-. split; [apply keeps_refl; exact I|reflexivity].
  - destruct (streq n (lit ".") || streq n (lit "..")); [exact (IH _ _ _ H I HP A PR)|].
    destruct (copy_entry cr C p dmode n s v t) as [[rc1 t1]| |] eqn:E; cbn [bind] in H; try discriminate. apply (copy_entry_good _ _ _ _ G) in E; try assumption.
    assert (P1 : s_files t1 p = s_files t p) by (apply E, not_longer; rewrite app_length; cbn; lia).
    destruct (rc1 =? PAM_SUCCESS)%Z; [|injection H as _ <-; split; [exact (keeps_child _ _ _ _ _ _ _ E)|exact P1]].
    pose proof (keeps_child _ _ _ _ _ _ _ E) as K. destruct (IH _ _ _ H (proj1 K) HP (above_keeps _ _ _ _ _ _ A K)) as (K2 & P2); [rewrite P1; exact PR|]. split; [exact (keeps_trans _ _ _ _ _ _ _ K K2)|congruence].
Qed.
Lemma copy_source_good : forall C home f0 cr, good_create C home f0 cr -> forall p dmode b s v t rc t', copy_source cr C p dmode b s v t = Ok (rc, t') ->
  inv C home f0 t -> home_of home p -> above home p t -> private (s_files t p) -> keeps C home f0 p t t' /\ s_files t' p = s_files t p.
Proof.
  intros C home f0 cr G p dmode b s v t rc t' H I HP A PR. unfold copy_source in H. destruct s as [s|]; [|injection H as _ <-; split; [apply keeps_refl; exact I|reflexivity]].
  destruct (if c_fails C (COpendir b) p then None else opened s) as [es|]; [|injection H as _ <-; split; [apply keeps_refl; exact I|reflexivity]]. exact (copy_entries_good _ _ _ _ G _ _ _ _ _ _ _ H I HP A PR).
Qed.
Lemma create_good : forall fuel C home f0, good_create C home f0 (create fuel C).
Proof.
  induction fuel as [|k IH]; intros C home f0 p dmode s v t rc t' H I HP A; cbn [create] in H; [discriminate|]. specialize (IH C home f0).
  destruct (streq (last p []) (lit ".") || streq (last p []) (lit "..")); [injection H as _ <-; apply keeps_refl; exact I|]. destruct (s_files t p) eqn:FP; [injection H as _ <-; apply keeps_refl; exact I|].
  destruct (streq (last p []) [] || c_fails C CMkdir p); [injection H as _ <-; apply keeps_refl; exact I|].
  assert (K1 : keeps C home f0 p t (emit (EMkdir p) t)) by (placed_tac).
  pose proof (made_here t (EMkdir p) p Logic.I eq_refl) as M1. assert (PR : private (s_files (emit (EMkdir p) t) p)) by (cbn; apply set_same). set (t1 := emit (EMkdir p) t) in *. clearbody t1. pose proof (above_keeps _ _ _ _ _ _ A K1) as A1.
  match type of H with bind ?e _ = _ => destruct e as [[rc2 t2]| |] eqn:B; cbn [bind] in H; try discriminate end.
  assert (K2 : keeps C home f0 p t1 t2).
  { destruct (c_fails C CAt p); [injection B as _ <-; apply keeps_refl, K1|]. destruct (copy_source (create k C) C p dmode false s v t1) as [[rc3 t3]| |] eqn:S1; cbn [bind] in B; try discriminate.
    apply (copy_source_good _ _ _ _ IH) in S1; try assumption; [|apply K1]. destruct S1 as (K3 & P3). destruct (rc3 =? PAM_SUCCESS)%Z; [|injection B as _ <-; exact K3].
    apply (copy_source_good _ _ _ _ IH) in B; try assumption; [|apply K3|exact (above_keeps _ _ _ _ _ _ A1 K3)|rewrite P3; exact PR]. exact (keeps_trans _ _ _ _ _ _ _ K3 (proj1 B)). }
  pose proof (keeps_trans _ _ _ _ _ _ _ K1 K2) as K12. pose proof (above_keeps _ _ _ _ _ _ A1 K2) as A2.
  assert (M2 : exists c, In c (s_trace t2) /\ creates c /\ where_ c = p). { destruct M1 as (c & X & Y). destruct K2 as (_ & _ & l & T). exists c. rewrite T. split; [apply in_or_app; left; exact X|exact Y]. }
  destruct (c_fails C CChmod p); [injection H as _ <-; exact K12|].
  assert (K3 : keeps C home f0 p t2 (emit (EChmod p dmode) t2)) by (placed_tac).
  pose proof (made_still t2 (EChmod p dmode) p M2) as M3. set (t3 := emit (EChmod p dmode) t2) in *. clearbody t3. pose proof (above_keeps _ _ _ _ _ _ A2 K3) as A3.
  destruct (c_fails C CChown p); injection H as _ <-; [exact (keeps_trans _ _ _ _ _ _ _ K12 K3)|]. apply (keeps_trans _ _ _ _ _ _ _ K12), (keeps_trans _ _ _ _ _ _ _ K3).
  placed_tac.
Qed.

(** C98: whatever the skeleton and whichever calls fail: the helper works only at the home directory and below; everything from the home directory down to
    the place of a call is at that time still root's and closed to others, so that nobody can have put a link there; it changes nothing but what
    it has made; and gives it to the user only. *)
Theorem mkhome_safe : forall fuel C home dmode s v f rc t, create fuel C home dmode s v (mkState f []) = Ok (rc, t) ->
  s_files t = after (s_trace t) f /\ forall a e b, s_trace t = (a ++ e :: b)%list ->
    (exists x, where_ e = home ++ x)%list /\ (forall y z, where_ e = home ++ y ++ z -> z <> [] -> private (after a f (home ++ y)))%list /\
    (creates e -> after a f (where_ e) = None) /\ (~ creates e -> exists c, In c a /\ creates c /\ where_ c = where_ e) /\
    (forall p u g, e = EChown p u g -> u = c_uid C /\ g = c_gid C).
Proof.
  intros fuel C home dmode s v f rc t H. destruct (create_good fuel C home f _ _ _ _ _ _ _ H) as ((F & T) & _ & _).
  - split; [reflexivity|exact Logic.I].
  - exists []. rewrite app_nil_r. reflexivity.
  - intros y z E N. exfalso. apply (f_equal (@length cstr)) in E. rewrite !app_length in E. destruct z; [contradiction|]. cbn in E. lia.
  - split; [exact F|]. intros a e b E. pose proof (each_split _ _ _ _ _ T E) as (P1 & P2 & P3 & P4 & P5). split; [exact P1|]. split; [exact P2|]. split; [exact P3|]. split; [exact P4|]. intros p u g ->. exact P5.
Qed.
(** C98: what was there before stays as it was. *)
Theorem mkhome_kept : forall fuel C home dmode s v f rc t q, create fuel C home dmode s v (mkState f []) = Ok (rc, t) -> f q <> None \/ ~ under home q -> s_files t q = f q.
Proof.
  intros fuel C home dmode s v f rc t q H Q. destruct (mkhome_safe _ _ _ _ _ _ _ _ _ H) as (F & T). rewrite F. destruct Q as [Q|Q].
  - assert (G : forall l, (exists r, s_trace t = l ++ r)%list -> after l f q = f q /\ forall c, In c l -> creates c -> where_ c <> q).
    { induction l as [|e l IH] using rev_ind; intros (r & E); [split; [reflexivity|intros c []]|]. rewrite <- app_assoc in E. destruct IH as (A & B); [eexists; exact E|].
      destruct (T l e r E) as (_ & _ & T3 & T4 & _). assert (N : where_ e <> q). { intro X. assert (D : creates e \/ ~ creates e) by (destruct e; cbn; tauto). destruct D as [D|D]; [apply T3 in D; congruence|]. destruct (T4 D) as (c & I & K & W). exact (B c I K (eq_trans W X)). }
      split; [rewrite after_app; cbn; rewrite apply_other by congruence; exact A|]. intros c I K. apply in_app_iff in I. destruct I as [I|[<-|[]]]; [exact (B c I K)|exact N]. }
    apply (G (s_trace t)). exists []. rewrite app_nil_r. reflexivity.
  - assert (G : forall l, (exists r, s_trace t = l ++ r)%list -> after l f q = f q).
    { induction l as [|e l IH] using rev_ind; intros (r & E); [reflexivity|]. rewrite <- app_assoc in E. rewrite after_app. cbn. rewrite apply_other; [apply IH; eexists; exact E|]. intros ->. destruct (T l e r E) as ((x & W) & _). apply Q. exists x. exact W. }
    apply (G (s_trace t)). exists []. rewrite app_nil_r. reflexivity.
Qed.

(** ** The copy *)
(** The entry of a name in a directory. *)
Definition look (n : cstr) (o : option src) : option src := match o with Some s => match opened s with Some es => entry n es | None => None end | None => None end.
(** What becomes of a file that is not a directory; devices and the like are left out. *)
Definition leaf (C : conf) (s : src) : option node :=
  match s with
  | SFile m x => Some (mkNode (KFile x) (drop_bits (KFile x) (masked C (Z.lor m 146))) (c_uid C) (c_gid C))
  | SLink t _ => Some (mkNode (KLink t) 511 (c_uid C) (c_gid C))
  | _ => None
  end.
Definition dots (n : cstr) : bool := streq n (lit ".") || streq n (lit "..").
(** What is to be found at [x] in a directory made from the directories [s] and, for what [s] does not have, [v]. *)
Fixpoint want (C : conf) (x : path) (dm : Z) (s v : option src) : option node :=
  match x with
  | [] => Some (mkNode KDir dm (c_uid C) (c_gid C))
  | n :: x =>
      if dots n then None
      else
        let sub (s : src) (v : option src) := match s with SDir es => want C x (Z.ldiff dm (c_umask C)) (Some s) v | _ => match x with [] => leaf C s | _ => None end end in
        match look n s with
        | None | Some SOther => match look n v with Some s => sub s None | None => None end
        | Some s => sub s (look n v)
        end
  end.
(** A directory has each name once. *)
Inductive wf : src -> Prop :=
| wf_dir : forall es, NoDup (map fst es) -> (forall n s, In (n, s) es -> wf s) -> wf (SDir es)
| wf_link : forall t s, wf s -> wf (SLink t s)
| wf_file : forall m x, wf (SFile m x)
| wf_other : wf SOther.
Definition wfo (o : option src) : Prop := forall s, o = Some s -> wf s.
Lemma wf_opened : forall s es, wf s -> opened s = Some es -> NoDup (map fst es) /\ forall n s, In (n, s) es -> wf s.
Proof. intros s es W. induction W as [l N F _|t s W IH|m x|]; intro H; cbn [opened] in H; try discriminate; [injection H as <-; auto|exact (IH H)]. Qed.
Lemma entry_in : forall es n s, NoDup (map fst es) -> (entry n es = Some s <-> In (n, s) es).
Proof.
  induction es as [|[m s0] es IH]; intros n s N; cbn [entry In map fst] in *; [split; [discriminate|intros []]|]. inversion N as [|? ? NI N']; subst. destruct (streq m n) eqn:E.
  - apply streq_eq in E. subst m. split; [intro H; injection H as ->; auto|]. intros [H|H]; [congruence|]. exfalso. apply NI. apply (in_map fst) in H. exact H.
  - rewrite IH by exact N'. split; [auto|]. intros [H|H]; [|exact H]. injection H as -> ->. rewrite streq_refl in E. discriminate.
Qed.
Lemma entry_none : forall es n, entry n es = None <-> ~ In n (map fst es).
Proof.
  induction es as [|[m s0] es IH]; intro n; cbn [entry In map fst]; [tauto|]. destruct (streq m n) eqn:E; [apply streq_eq in E; subst; split; [discriminate|tauto]|]. rewrite IH. split; [|tauto]. intros H [->|X]; [rewrite streq_refl in E; discriminate|tauto].
Qed.
Lemma wfo_look : forall n o, wfo o -> wfo (look n o).
Proof.
  intros n o W s H. unfold look in H. destruct o as [s0|]; [|discriminate]. destruct (opened s0) as [es|] eqn:O; [|discriminate]. destruct (wf_opened _ _ (W _ eq_refl) O) as (N & F). apply entry_in in H; [|exact N]. exact (F _ _ H).
Qed.
Definition framed (p : path) (t t' : state) : Prop := forall q, ~ under p q -> s_files t' q = s_files t q.
Lemma framed_emit : forall e t, framed (where_ e) t (emit e t).
Proof. intros e t q N. cbn [emit s_files]. apply apply_other. intros ->. apply N. exists []. rewrite app_nil_r. reflexivity. Qed.
Lemma framed_trans : forall p a b c, framed p a b -> framed p b c -> framed p a c. Proof. intros p a b c A B q N. rewrite B, A by exact N. reflexivity. Qed.
Lemma framed_child : forall p n a b, framed (p ++ [n]) a b -> framed p a b.
Proof. intros p n a b F q N. apply F. intros (x & ->). apply N. exists ([n] ++ x)%list. rewrite app_assoc. reflexivity. Qed.
Definition frames (cr : path -> Z -> option src -> option src -> state -> res (Z * state)) : Prop := forall p dm s v t rc t', cr p dm s v t = Ok (rc, t') -> framed p t t'.
Ltac frame_tac := first [intros ? ?; reflexivity|eapply framed_trans; [|apply framed_emit]; frame_tac].
Lemma frame_entry : forall C cr, frames cr -> forall p dm n s v t rc t', copy_entry cr C p dm n s v t = Ok (rc, t') -> framed (p ++ [n]) t t'.
Proof.
  intros C cr G p dm n s v t rc t' H. unfold copy_entry in H. set (q := (p ++ [n])%list) in *. clearbody q.
  repeat match type of H with Ok _ = _ => injection H as _ <- | cr _ _ _ _ _ = _ => exact (G _ _ _ _ _ _ _ H) | match ?e with _ => _ end = _ => destruct e end;
  try (intros ? ?; reflexivity);
  repeat first [exact (framed_emit (ECreate q) t)|exact (framed_emit (ESymlink q _) t)
    |match goal with |- framed _ _ (emit ?e ?t1) => apply (framed_trans _ _ t1); [|exact (framed_emit e t1)] end].
Qed.
Lemma frame_entries : forall C cr, frames cr -> forall p dm es v t rc t', copy_entries cr C p dm es v t = Ok (rc, t') -> framed p t t' /\ s_files t' p = s_files t p.
Proof.
  intros C cr G p dm es v. induction es as [|[n s] es IH]; intros t rc t' H; cbn [copy_entries] in H; [injection H as _ <-; split; [intros ? ?|]; reflexivity|].
  destruct (streq n (lit ".") || streq n (lit "..")); [exact (IH _ _ _ H)|]. destruct (copy_entry cr C p dm n s v t) as [[rc1 t1]| |] eqn:E; cbn [bind] in H; try discriminate. apply (frame_entry _ _ G) in E.
  assert (P1 : s_files t1 p = s_files t p) by (apply E, not_longer; rewrite app_length; cbn; lia). pose proof (framed_child _ _ _ _ E) as F. destruct (rc1 =? PAM_SUCCESS)%Z; [|injection H as _ <-; auto].
  destruct (IH _ _ _ H) as (F2 & P2). split; [exact (framed_trans _ _ _ _ F F2)|congruence].
Qed.
Lemma frame_source : forall C cr, frames cr -> forall p dm b s v t rc t', copy_source cr C p dm b s v t = Ok (rc, t') -> framed p t t' /\ s_files t' p = s_files t p.
Proof.
  intros C cr G p dm b s v t rc t' H. unfold copy_source in H. destruct s as [s|]; [|injection H as _ <-; split; [intros ? ?|]; reflexivity].
  destruct (if c_fails C (COpendir b) p then None else opened s) as [es|]; [|injection H as _ <-; split; [intros ? ?|]; reflexivity]. exact (frame_entries _ _ G _ _ _ _ _ _ _ H).
Qed.
Lemma frame_create : forall fuel C, frames (create fuel C).
Proof.
  induction fuel as [|k IH]; intros C p dm s v t rc t' H; cbn [create] in H; [discriminate|]. destruct (_ || _); [injection H as _ <-; intros ? ?; reflexivity|]. destruct (s_files t p); [injection H as _ <-; intros ? ?; reflexivity|].
  destruct (_ || _); [injection H as _ <-; intros ? ?; reflexivity|]. pose proof (framed_emit (EMkdir p) t) as F1. cbn [where_] in F1. set (t1 := emit (EMkdir p) t) in *. clearbody t1.
  match type of H with bind ?e _ = _ => destruct e as [[rc2 t2]| |] eqn:B; cbn [bind] in H; try discriminate end.
  assert (F2 : framed p t1 t2).
  { destruct (c_fails C CAt p); [injection B as _ <-; intros ? ?; reflexivity|]. destruct (copy_source (create k C) C p dm false s v t1) as [[rc3 t3]| |] eqn:S1; cbn [bind] in B; try discriminate.
    apply (frame_source _ _ (IH C)) in S1. destruct (rc3 =? PAM_SUCCESS)%Z; [|injection B as _ <-; apply S1]. apply (frame_source _ _ (IH C)) in B. exact (framed_trans _ _ _ _ (proj1 S1) (proj1 B)). }
  pose proof (framed_trans _ _ _ _ F1 F2) as F. pose proof (framed_emit (EChmod p dm) t2) as F3. cbn [where_] in F3. set (t3 := emit (EChmod p dm) t2) in *. clearbody t3. pose proof (framed_emit (EChown p (c_uid C) (c_gid C)) t3) as F4. cbn [where_] in F4.
  destruct (c_fails C CChmod p); [injection H as _ <-; exact F|]. destruct (c_fails C CChown p); injection H as _ <-; [exact (framed_trans _ _ _ _ F F3)|exact (framed_trans _ _ _ _ F (framed_trans _ _ _ _ F3 F4))].
Qed.
(** Looking at the skeleton works. *)
Definition looks (C : conf) : Prop := forall p, c_fails C CLstat p = false /\ c_fails C CLstatV p = false /\ c_fails C CReadlink p = false.
Definition makes (C : conf) (cr : path -> Z -> option src -> option src -> state -> res (Z * state)) : Prop :=
  forall p dm s v t t', cr p dm s v t = Ok (PAM_SUCCESS, t') -> wfo s -> wfo v -> dots (last p []) = false ->
    (s_files t p <> None -> t' = t) /\ ((forall x, s_files t (p ++ x)%list = None) -> forall x, s_files t' (p ++ x)%list = want C x dm s v).
Definition sub (C : conf) (x : path) (dm : Z) (s : src) (v : option src) : option node :=
  match s with SDir _ => want C x (Z.ldiff dm (c_umask C)) (Some s) v | _ => match x with [] => leaf C s | _ => None end end.
Lemma last_snoc : forall (p : path) n, last (p ++ [n])%list [] = n. Proof. intros. apply last_last. Qed.
Lemma entry_makes : forall C cr, looks C -> frames cr -> makes C cr -> forall p dm n s v t t', copy_entry cr C p dm n s v t = Ok (PAM_SUCCESS, t') -> dots n = false -> wf s -> wfo v ->
  (s_files t (p ++ [n])%list <> None -> s_files t' = s_files t) /\ ((forall x, s_files t (p ++ n :: x)%list = None) -> forall x, s_files t' (p ++ n :: x)%list = sub C x dm s (look n v)).
Proof.
  intros C cr L FR G p dm n s v t t' H D W WV. unfold copy_entry in H. pose proof (last_snoc p n) as LS. assert (Q : forall x, (p ++ n :: x)%list = ((p ++ [n]) ++ x)%list) by (intro x; rewrite <- app_assoc; reflexivity).
  set (q := (p ++ [n])%list) in *. destruct (L q) as (L1 & L2 & L3). rewrite L1 in H. destruct (c_fails C CAlloc q); [discriminate|].
  assert (Q0 : (forall x, s_files t (p ++ n :: x)%list = None) -> s_files t q = None) by (intro X; specialize (X []); exact X).
  destruct s as [es|mode text|target to|].
  - assert (K : exists v', cr q (masked C dm) (Some (SDir es)) v' t = Ok (PAM_SUCCESS, t') /\ v' = look n v).
    { destruct v as [v|]; [|exists None; auto]. destruct (c_fails C CAllocV q); [discriminate|]. rewrite L2 in H. eexists. split; [exact H|reflexivity]. }
    destruct K as (v' & K & ->). destruct (G _ _ _ _ _ _ K) as (A & B); [intros s0 X; injection X as <-; exact W|apply wfo_look; exact WV|rewrite LS; exact D|].
    split; [intro X; rewrite (A X); reflexivity|]. intros X x. rewrite Q. cbn [sub]. apply B. intro y. rewrite <- Q. apply X.
  - destruct (c_fails C COpen q); [discriminate|]. destruct (s_files t q) eqn:FQ; [injection H as <-; split; [reflexivity|]; intro X; specialize (Q0 X); congruence|].
    split; [contradiction|]. intros X x. destruct (c_fails C CCreate q); [discriminate|]. destruct (c_fails C CFchmod q); [discriminate|]. destruct (c_fails C CFchown q); [discriminate|]. destruct (c_fails C CCopy q); [discriminate|]. injection H as <-.
    cbn [emit s_files]. rewrite Q. cbn [sub]. destruct x as [|m x].
    + rewrite app_nil_r. cbn [apply]. repeat rewrite set_same. cbn [n_kind n_mode n_uid n_gid leaf drop_bits]. reflexivity.
    + assert (NE : (q ++ m :: x)%list <> q) by (intro Y; apply (f_equal (@length cstr)) in Y; rewrite app_length in Y; cbn in Y; lia). rewrite !apply_other by exact NE. rewrite <- Q. apply X.
  - rewrite L3 in H. destruct (s_files t q) eqn:FQ; [injection H as <-; split; [reflexivity|]; intro X; specialize (Q0 X); congruence|].
    split; [contradiction|]. intros X x. destruct (c_fails C CSymlink q); [discriminate|]. destruct (c_fails C CLchown q); [discriminate|]. injection H as <-.
    cbn [emit s_files]. rewrite Q. cbn [sub]. destruct x as [|m x].
    + rewrite app_nil_r. cbn [apply]. repeat rewrite set_same. reflexivity.
    + assert (NE : (q ++ m :: x)%list <> q) by (intro Y; apply (f_equal (@length cstr)) in Y; rewrite app_length in Y; cbn in Y; lia). rewrite !apply_other by exact NE. rewrite <- Q. apply X.
  - injection H as <-. split; [reflexivity|]. intros X x. rewrite X. cbn [sub leaf]. destruct x; reflexivity.
Qed.
Lemma apart_names : forall (p : path) n m x, n <> m -> ~ under (p ++ [n]) (p ++ m :: x).
Proof. intros p n m x N (y & E). rewrite <- app_assoc in E. apply app_inv_head in E. injection E as E _. congruence. Qed.
Lemma entries_make : forall C cr, looks C -> frames cr -> makes C cr -> forall p dm es v t t', copy_entries cr C p dm es v t = Ok (PAM_SUCCESS, t') -> NoDup (map fst es) -> (forall n s, In (n, s) es -> wf s) -> wfo v ->
  (forall n, s_files t (p ++ [n])%list = None -> forall x, s_files t (p ++ n :: x)%list = None) ->
  forall n x, s_files t' (p ++ n :: x)%list =
    match (if dots n then None else entry n es) with
    | Some s => match s_files t (p ++ [n])%list with Some _ => s_files t (p ++ n :: x)%list | None => sub C x dm s (look n v) end
    | None => s_files t (p ++ n :: x)%list
    end.
Proof.
  intros C cr L FR G p dm es v. induction es as [|[m s] es IH]; intros t t' H N W WV CL n x; cbn [copy_entries] in H.
  - injection H as <-. destruct (dots n); reflexivity.
  - cbn [map fst] in N. inversion N as [|? ? NI N']; subst. assert (W' : forall n s, In (n, s) es -> wf s) by (intros; apply (W n0 s0); right; assumption). fold (dots m) in H. destruct (dots m) eqn:DM.
    + rewrite (IH _ _ H N' W' WV CL n x). cbn [entry]. destruct (streq m n) eqn:E; [|reflexivity]. apply streq_eq in E. subst m. rewrite DM. reflexivity.
    + destruct (copy_entry cr C p dm m s v t) as [[rc1 t1]| |] eqn:E; cbn [bind] in H; try discriminate. destruct (Z.eqb_spec rc1 PAM_SUCCESS) as [->|]; [|injection H as X _; congruence].
      pose proof (frame_entry _ _ FR _ _ _ _ _ _ _ _ E) as F. destruct (entry_makes _ _ L FR G _ _ _ _ _ _ _ E DM (W m s (or_introl eq_refl)) WV) as (A & B).
      assert (FN : forall k y, k <> m -> s_files t1 (p ++ k :: y)%list = s_files t (p ++ k :: y)%list) by (intros k y NK; apply F, apart_names; congruence).
      assert (CL1 : forall k, k <> m -> s_files t1 (p ++ [k])%list = None -> forall y, s_files t1 (p ++ k :: y)%list = None) by (intros k NK X y; rewrite FN in * by exact NK; apply CL; exact X).
      assert (CL' : forall k, s_files t1 (p ++ [k])%list = None -> forall y, s_files t1 (p ++ k :: y)%list = None).
      { intros k X y. destruct (streq k m) eqn:KM; [apply streq_eq in KM; subst k|apply CL1; [intros ->; rewrite streq_refl in KM; discriminate|exact X]].
        destruct (s_files t (p ++ [m])%list) eqn:FM; [rewrite A in * by discriminate; congruence|]. rewrite (B (CL m FM)) in X. rewrite (B (CL m FM)). destruct s; cbn [sub want] in *; try discriminate; destruct y; try reflexivity; exact X. }
      rewrite (IH _ _ H N' W' WV CL' n x). cbn [entry]. destruct (streq m n) eqn:MN.
      * apply streq_eq in MN. subst n. rewrite DM. assert (EN : entry m es = None) by (apply entry_none; exact NI). rewrite EN. destruct (s_files t (p ++ [m])%list) eqn:FM; [rewrite A by discriminate; reflexivity|]. apply B, CL, FM.
      * assert (NK : n <> m) by (intros ->; rewrite streq_refl in MN; discriminate). rewrite !FN by exact NK. reflexivity.
Qed.
Lemma create_makes : forall fuel C, looks C -> makes C (create fuel C).
Proof.
  induction fuel as [|k IH]; intros C L p dm s v t t' H WS WV D; cbn [create] in H; [discriminate|]. fold (dots (last p [])) in H. rewrite D in H. specialize (IH C L). pose proof (frame_create k C) as FR.
  destruct (s_files t p) eqn:FP; [injection H as <-; split; [reflexivity|]; intro X; specialize (X []); rewrite app_nil_r in X; congruence|]. split; [contradiction|]. intros X x.
  destruct (streq (last p []) [] || c_fails C CMkdir p); [discriminate|].
  assert (NE : forall n y, (p ++ n :: y)%list <> p) by (intros n y Y; apply (f_equal (@length cstr)) in Y; rewrite app_length in Y; cbn in Y; lia).
  assert (X1 : forall n y, s_files (emit (EMkdir p) t) (p ++ n :: y)%list = None) by (intros n y; cbn [emit s_files]; rewrite apply_other by apply NE; apply X).
  assert (P1 : s_files (emit (EMkdir p) t) p = Some (mkNode KDir 448 0 0)) by (cbn; apply set_same). set (t1 := emit (EMkdir p) t) in *. clearbody t1.
  match type of H with bind ?e _ = _ => destruct e as [[rc2 t2]| |] eqn:B; cbn [bind] in H; try discriminate end.
  destruct (c_fails C CChmod p); [discriminate|]. destruct (c_fails C CChown p); [discriminate|]. injection H as -> <-.
  assert (K : s_files t2 p = Some (mkNode KDir 448 0 0) /\ forall n y, s_files t2 (p ++ n :: y)%list = want C (n :: y) dm s v).
  { destruct (c_fails C CAt p); [discriminate|]. destruct (copy_source (create k C) C p dm false s v t1) as [[rc3 t3]| |] eqn:S1; cbn [bind] in B; try discriminate. destruct (Z.eqb_spec rc3 PAM_SUCCESS) as [->|NZ]; [|injection B as Y _; congruence].
    pose proof (frame_source _ _ FR _ _ _ _ _ _ _ _ S1) as (_ & P3). pose proof (frame_source _ _ FR _ _ _ _ _ _ _ _ B) as (_ & P2). split; [congruence|].
    assert (R1 : forall n y, s_files t3 (p ++ n :: y)%list = if dots n then None else match look n s with Some s' => sub C y dm s' (look n v) | None => None end).
    { intros n y. unfold copy_source in S1. destruct s as [s|]; [|injection S1 as <-; cbn [look]; rewrite X1; destruct (dots n); reflexivity]. destruct (c_fails C (COpendir false) p); [discriminate|]. cbn [look]. destruct (opened s) as [es|] eqn:O; [|discriminate].
      destruct (wf_opened _ _ (WS _ eq_refl) O) as (N & F). rewrite (entries_make _ _ L FR IH _ _ _ _ _ _ S1 N F WV) by (intros; apply X1). rewrite !X1. destruct (dots n); [reflexivity|]. destruct (entry n es); reflexivity. }
    assert (CL : forall n, s_files t3 (p ++ [n])%list = None -> forall y, s_files t3 (p ++ n :: y)%list = None).
    { intros n Y y. rewrite R1 in *. destruct (dots n); [reflexivity|]. destruct (look n s) as [s'|]; [|reflexivity]. destruct s'; cbn [sub want] in *; try discriminate; destruct y; try reflexivity; exact Y. }
    intros n y. cbn [want]. unfold copy_source in B. destruct v as [v|].
    - destruct (c_fails C (COpendir true) p); [discriminate|]. destruct (opened v) as [es|] eqn:O; [|discriminate]. destruct (wf_opened _ _ (WV _ eq_refl) O) as (N & F). rewrite (entries_make _ _ L FR IH _ _ _ _ _ _ B N F) by (assumption || (intros ? ?; discriminate)).
      assert (LV : look n (Some v) = entry n es) by (cbn [look]; rewrite O; reflexivity). rewrite LV in *. rewrite !R1. destruct (dots n) eqn:DN; [reflexivity|].
      destruct (look n s) as [s'|]; [destruct s'|]; rewrite ?LV; cbn [sub want look]; destruct (entry n es) as [e|]; try reflexivity; try (destruct y; reflexivity); destruct e; destruct y; reflexivity.
    - injection B as <-. rewrite R1. destruct (dots n); [reflexivity|]. destruct (look n s) as [s'|]; [destruct s'|]; cbn [sub look]; try reflexivity. destruct y; reflexivity. }
  destruct K as (K1 & K2). destruct x as [|n y].
  - rewrite app_nil_r. cbn [emit s_files apply]. rewrite K1, set_same. cbn [n_kind n_uid n_gid]. rewrite set_same. reflexivity.
  - cbn [emit s_files]. rewrite !apply_other by apply NE. apply K2.
Qed.

(** C98: when the helper's work succeeds, and the skeleton could be looked at, the home directory is a copy: its entries are those of the skeleton and, for
    names it does not have, of the vendor's directory, and so on below; files have their contents, links their targets; nothing else is there. *)
Theorem mkhome_copy : forall fuel C home dm s v f t, create fuel C home dm s v (mkState f []) = Ok (PAM_SUCCESS, t) -> looks C -> wfo s -> wfo v -> dots (last home []) = false ->
  (forall x, f (home ++ x)%list = None) -> forall x, s_files t (home ++ x)%list = want C x dm s v.
Proof. intros fuel C home dm s v f t H L WS WV D N x. exact (proj2 (create_makes fuel C L _ _ _ _ _ _ H WS WV D) N x). Qed.
(** C98: everything in the copy is the user's; below the home directory no permission the umask takes away is left; no file is set-user-ID; and the
    permissions to write are there unless the umask takes them away. *)
Theorem mkhome_modes : forall C x dm s v n, want C x dm s v = Some n ->
  n_uid n = c_uid C /\ n_gid n = c_gid C /\ (x = [] -> n = mkNode KDir dm (c_uid C) (c_gid C)) /\
  (forall i, (0 <= i < 9)%Z -> x <> [] -> (forall t, n_kind n <> KLink t) -> Z.testbit (n_mode n) i = true -> Z.testbit (c_umask C) i = false) /\
  (forall t, n_kind n = KFile t -> Z.testbit (n_mode n) 11 = false /\ forall i, i = 1%Z \/ i = 4%Z \/ i = 7%Z -> Z.testbit (n_mode n) i = negb (Z.testbit (c_umask C) i)).
Proof.
  intros C x. induction x as [|m x IH]; intros dm s v n H.
  - cbn [want] in H. injection H as <-. cbn. repeat split; try discriminate. intros i _ X. contradiction.
  - assert (G : forall s v, sub C x dm s v = Some n -> n_uid n = c_uid C /\ n_gid n = c_gid C /\
      (forall i, (0 <= i < 9)%Z -> (forall t, n_kind n <> KLink t) -> Z.testbit (n_mode n) i = true -> Z.testbit (c_umask C) i = false) /\
      (forall t, n_kind n = KFile t -> Z.testbit (n_mode n) 11 = false /\ forall i, i = 1%Z \/ i = 4%Z \/ i = 7%Z -> Z.testbit (n_mode n) i = negb (Z.testbit (c_umask C) i))).
    { clear H s v. intros s v H. destruct s as [es|mo tx|tg to|]; cbn [sub] in H.
      - destruct (IH _ _ _ _ H) as (A & B & D & E & F). split; [exact A|]. split; [exact B|]. split; [|exact F]. intros i I K T. destruct x as [|y x]; [|apply (E i I); try assumption; discriminate].
        rewrite (D eq_refl) in T. cbn [n_mode] in T. rewrite Z.ldiff_spec in T. apply andb_true_iff in T. destruct (Z.testbit (c_umask C) i); [destruct T; discriminate|reflexivity].
      - destruct x; [|discriminate]. cbn [leaf] in H. injection H as <-. cbn [n_uid n_gid n_kind n_mode]. split; [reflexivity|]. split; [reflexivity|].
        set (r := masked C (Z.lor mo 146)). assert (R : forall i, (0 <= i < 10)%Z -> Z.testbit (drop_bits (KFile tx) r) i = Z.testbit r i).
        { intros i I. unfold drop_bits. cbv zeta. assert (B1 : Z.testbit 2047 i = true) by (change 2047%Z with (Z.ones 11); apply Z.ones_spec_low; lia). assert (B2 : Z.testbit 1023 i = true) by (change 1023%Z with (Z.ones 10); apply Z.ones_spec_low; lia).
          destruct (Z.testbit (Z.land r 2047) 3); rewrite !Z.land_spec, ?B1, ?B2, ?andb_true_r; reflexivity. }
        split.
        + intros i I _ T. rewrite R in T by lia. unfold r, masked in T. rewrite Z.ldiff_spec in T. apply andb_true_iff in T. destruct (Z.testbit (c_umask C) i); [destruct T; discriminate|reflexivity].
        + intros t _. split.
          * unfold drop_bits. cbv zeta. match goal with |- context [if ?b then _ else _] => destruct b end; rewrite !Z.land_spec; [change (Z.testbit 1023 11) with false|change (Z.testbit 2047 11) with false]; rewrite andb_false_r; reflexivity.
          * intros i I. rewrite R by lia. unfold r, masked. rewrite Z.ldiff_spec, Z.lor_spec. assert (B : Z.testbit 146 i = true) by (destruct I as [-> | [-> | ->]]; reflexivity). rewrite B, orb_true_r. reflexivity.
      - destruct x; [|discriminate]. cbn [leaf] in H. injection H as <-. cbn [n_uid n_gid n_kind]. split; [reflexivity|]. split; [reflexivity|]. split; [intros i _ K; exfalso; exact (K tg eq_refl)|discriminate].
      - destruct x; discriminate. }
    assert (K : exists s v, sub C x dm s v = Some n).
    { cbn [want] in H. destruct (dots m); [discriminate|]. destruct (look m s) as [[es|mo tx|tg to|]|].
      1: exists (SDir es), (look m v); exact H. 1: exists (SFile mo tx), (look m v); exact H. 1: exists (SLink tg to), (look m v); exact H.
      all: destruct (look m v) as [s'|]; [exists s', None; exact H|discriminate]. }
    destruct K as (s' & v' & K). destruct (G _ _ K) as (A & B & D & E). split; [exact A|]. split; [exact B|]. split; [discriminate|]. split; [|exact E]. intros i I _. exact (D i I).
Qed.

(** ** Termination *)
Definition ho (o : option src) : nat := match o with Some s => height s | None => 0%nat end.
Lemma height_entry : forall es n s, In (n, s) es -> (height s <= fold_right (fun (e : cstr * src) m => Nat.max (height (snd e)) m) 0 es)%nat.
Proof. induction es as [|e es IH]; intros n s H; [destruct H|]. cbn [fold_right]. destruct H as [->|H]; [cbn [snd]; lia|]. specialize (IH n s H). lia. Qed.
Lemma height_opened : forall s es n s', opened s = Some es -> In (n, s') es -> (height s' < height s)%nat.
Proof. fix IH 1. intros s es n s' O H. destruct s as [l|m x|t to|]; cbn [opened] in O; try discriminate; cbn [height]; [injection O as ->; pose proof (height_entry _ _ _ H); lia|]. pose proof (IH to es n s' O H). lia. Qed.
Lemma entry_some_in : forall es n s, entry n es = Some s -> In (n, s) es.
Proof. induction es as [|[m s0] es IH]; intros n s H; cbn [entry] in H; [discriminate|]. destruct (streq m n) eqn:E; [apply streq_eq in E; subst; injection H as ->; left; reflexivity|right; apply IH; exact H]. Qed.
Lemma create_ends : forall fuel C p dm s v t, (Nat.max (ho s) (ho v) < fuel)%nat -> exists rc t', create fuel C p dm s v t = Ok (rc, t').
Proof.
  induction fuel as [|k IH]; intros C p dm s v t L; [lia|]. cbn [create]. destruct (_ || _); [do 2 eexists; reflexivity|]. destruct (s_files t p); [do 2 eexists; reflexivity|]. destruct (_ || _); [do 2 eexists; reflexivity|].
  assert (SO : forall b s v t, (Nat.max (ho s) (ho v) <= k)%nat -> exists rc t', copy_source (create k C) C p dm b s v t = Ok (rc, t')).
  { clear s v t L. intros b s v t L. unfold copy_source. destruct s as [s|]; [|do 2 eexists; reflexivity]. destruct (if c_fails C (COpendir b) p then None else opened s) as [es|] eqn:O; [|do 2 eexists; reflexivity]. destruct (c_fails C (COpendir b) p); [discriminate|].
    assert (HE : forall n e, In (n, e) es -> (height e < k)%nat) by (intros n e I; pose proof (height_opened _ _ _ _ O I); cbn [ho] in L; lia). clear O. revert t. induction es as [|[n e] es IHe]; intro t; cbn [copy_entries]; [do 2 eexists; reflexivity|].
    assert (IHe' : forall t, exists rc t', copy_entries (create k C) C p dm es v t = Ok (rc, t')) by (apply IHe; intros n' e' I; apply (HE n' e'); right; exact I).
    destruct (_ || _); [apply IHe'|].
    assert (CE : exists rc t', copy_entry (create k C) C p dm n e v t = Ok (rc, t')).
    { unfold copy_entry. destruct (c_fails C CAlloc _); [do 2 eexists; reflexivity|]. destruct (c_fails C CLstat _); [do 2 eexists; reflexivity|]. specialize (HE n e (or_introl eq_refl)).
      destruct e as [l|mo tx|tg to|].
      - destruct v as [v|]; [destruct (c_fails C CAllocV _); [do 2 eexists; reflexivity|]|]; apply IH; cbn [ho]; [|lia]. destruct (c_fails C CLstatV _); cbn [ho]; [lia|]. destruct (opened v) as [vs|] eqn:OV; cbn [ho]; [|lia].
        destruct (entry n vs) as [e|] eqn:EN; cbn [ho]; [|lia]. pose proof (height_opened _ _ _ _ OV (entry_some_in _ _ _ EN)). cbn [ho] in L. lia.
      - repeat match goal with |- context [match ?e with _ => _ end] => destruct e end; do 2 eexists; reflexivity.
      - repeat match goal with |- context [match ?e with _ => _ end] => destruct e end; do 2 eexists; reflexivity.
      - do 2 eexists; reflexivity. }
    destruct CE as (rc & t' & ->). cbn [bind]. destruct (rc =? PAM_SUCCESS)%Z; [apply IHe'|do 2 eexists; reflexivity]. }
  set (t1 := emit (EMkdir p) t). clearbody t1.
  assert (B : exists rc t2, (if c_fails C CAt p then Ok (PAM_PERM_DENIED, t1) else bind (copy_source (create k C) C p dm false s v t1) (fun r => let '(rc, t) := r in if (rc =? PAM_SUCCESS)%Z then copy_source (create k C) C p dm true v None t else Ok (rc, t))) = Ok (rc, t2)).
  { destruct (c_fails C CAt p); [do 2 eexists; reflexivity|]. destruct (SO false s v t1) as (rc & t2 & ->); [lia|]. cbn [bind]. destruct (rc =? PAM_SUCCESS)%Z; [apply SO; cbn [ho]; lia|do 2 eexists; reflexivity]. }
  destruct B as (rc & t2 & ->). cbn [bind]. destruct (c_fails C CChmod p); [do 2 eexists; reflexivity|]. destruct (c_fails C CChown p); do 2 eexists; reflexivity.
Qed.

(** ** The helper *)
Lemma last_slash_some : forall s a b, last_slash s = Some (a, b) <-> s = (a ++ "/"%char :: b)%list /\ ~ In "/"%char b.
Proof.
  assert (N : forall s, last_slash s = None <-> ~ In "/"%char s).
  { induction s as [|c s IH]; cbn [last_slash]; [split; [intros _ []|reflexivity]|]. destruct (last_slash s) as [[a b]|] eqn:E; [split; [discriminate|]; intro H; exfalso; apply H; right; destruct (in_dec ascii_dec "/"%char s) as [I|I]; [exact I|apply IH in I; discriminate]|].
    assert (NS : ~ In "/"%char s) by (apply IH; reflexivity). destruct (Ascii.eqb_spec c "/"%char) as [->|NE]; [split; [discriminate|]; intro H; exfalso; apply H; left; reflexivity|]. split; [|reflexivity]. intros _ [H|H]; [exact (NE H)|exact (NS H)]. }
  induction s as [|c s IH]; intros a b; cbn [last_slash]; [split; [discriminate|]; intros (H & _); destruct a; discriminate|].
  destruct (last_slash s) as [[a' b']|] eqn:E.
  - destruct (proj1 (IH a' b') eq_refl) as (-> & NB). split; [intro H; injection H as <- <-; auto|]. intros (H & NB'). destruct a as [|d a]; cbn [app] in H; injection H as -> H.
    + exfalso. apply NB'. rewrite <- H. apply in_or_app. right. left. reflexivity.
    + pose proof (proj2 (IH a b) (conj H NB')) as X. injection X as -> ->. reflexivity.
  - assert (NS : ~ In "/"%char s) by (apply N; exact E). destruct (Ascii.eqb_spec c "/"%char) as [->|NE].
    + split; [intro H; injection H as <- <-; auto|]. intros (H & NB). destruct a as [|d a]; cbn [app] in H; injection H; [intros ->; reflexivity|]. intros H' _. exfalso. apply NS. rewrite H'. apply in_or_app. right. left. reflexivity.
    + split; [discriminate|]. intros (H & NB). destruct a as [|d a]; cbn [app] in H; injection H; [intros; congruence|]. intros H' _. exfalso. apply NS. rewrite H'. apply in_or_app. right. left. reflexivity.
Qed.
Definition parent_of (a b : cstr) : Prop := exists r, b = (a ++ "/"%char :: r)%list.
Lemma parent_trans : forall a b c, parent_of a b -> parent_of b c -> parent_of a c.
Proof. intros a b c (r & ->) (q & ->). exists (r ++ "/"%char :: q)%list. rewrite <- app_assoc. reflexivity. Qed.
Lemma parents_spec : forall fuel stat mkdir dir make rc ms, make_parents fuel stat mkdir dir make = Ok (rc, ms) ->
  (forall m, In m ms -> (m = dir /\ make = true) \/ (parent_of m dir /\ stat m = Missing)) /\ (forall m, In m ms -> mkdir m = Made) /\
  (forall a x b y c, ms = (a ++ x :: b ++ y :: c)%list -> parent_of x y) /\
  (rc = PAM_SUCCESS -> (make = true -> In "/"%char dir -> mkdir dir <> Refused) /\ forall a b, dir = (a ++ "/"%char :: b)%list -> ~ In "/"%char b -> a <> [] -> stat a = Missing -> In "/"%char a -> mkdir a <> Refused) /\ (rc = PAM_SUCCESS \/ rc = PAM_PERM_DENIED).
Proof.
  induction fuel as [|k IH]; intros stat mkdir dir make rc ms H; cbn [make_parents] in H; [discriminate|]. destruct (last_slash dir) as [[a b]|] eqn:E.
  2:{ injection H as <- <-. assert (N : ~ In "/"%char dir). { intro I. apply in_split in I. assert (X : exists a b, dir = (a ++ "/"%char :: b)%list /\ ~ In "/"%char b). { clear - I. destruct I as (a & b & ->). revert a. induction b as [b IHb] using (well_founded_induction (Wf_nat.well_founded_ltof _ (@length ascii))). intro a. destruct (in_dec ascii_dec "/"%char b) as [J|J]; [|exists a, b; auto].
      apply in_split in J. destruct J as (b1 & b2 & ->). destruct (IHb b2) with (a := (a ++ "/"%char :: b1)%list) as (a' & b' & E & N); [unfold Wf_nat.ltof; rewrite app_length; cbn; lia|]. exists a', b'. rewrite <- E, <- app_assoc. auto. } destruct X as (a & b & X). apply last_slash_some in X. congruence. }
    split; [intros m []|]. split; [intros m []|]. split; [intros [|] ? ? ? ? X; discriminate|]. split; [|auto]. intros _. split; [intros _ I; contradiction|]. intros a b -> _ _ _ _. exfalso. apply N. apply in_or_app. right. left. reflexivity. }
  apply last_slash_some in E. destruct E as (E & NB).
  match type of H with bind ?e _ = _ => destruct e as [[rc1 ms1]| |] eqn:B; cbn [bind] in H; try discriminate end.
  assert (K : (forall m, In m ms1 -> parent_of m dir /\ stat m = Missing) /\ (forall m, In m ms1 -> mkdir m = Made) /\ (forall a x b y c, ms1 = (a ++ x :: b ++ y :: c)%list -> parent_of x y) /\
    (rc1 = PAM_SUCCESS -> a <> [] -> stat a = Missing -> In "/"%char a -> mkdir a <> Refused) /\ (rc1 = PAM_SUCCESS \/ rc1 = PAM_PERM_DENIED)).
  { assert (Z0 : rc1 = PAM_SUCCESS -> ms1 = [] -> (a = [] \/ stat a <> Missing) -> (forall m, In m ms1 -> parent_of m dir /\ stat m = Missing) /\ (forall m, In m ms1 -> mkdir m = Made) /\ (forall a x b y c, ms1 = (a ++ x :: b ++ y :: c)%list -> parent_of x y) /\
      (rc1 = PAM_SUCCESS -> a <> [] -> stat a = Missing -> In "/"%char a -> mkdir a <> Refused) /\ (rc1 = PAM_SUCCESS \/ rc1 = PAM_PERM_DENIED)).
    { intros -> -> Q. split; [intros m []|]. split; [intros m []|]. split; [intros [|] ? ? ? ? X; discriminate|]. split; [|auto]. intros _ NA M. destruct Q; contradiction. }
    destruct a as [|c0 a0]; [injection B as <- <-; apply Z0; auto|]. set (a := c0 :: a0) in *. destruct (stat a) eqn:ST; try (injection B as <- <-; apply Z0; auto; right; discriminate).
    destruct (IH _ _ _ _ _ _ B) as (A & D & F & G & R). split; [|split; [exact D|split; [exact F|split; [|exact R]]]].
    - intros m I. destruct (A m I) as [(-> & _)|(P & M)]; [split; [exists b; exact E|exact ST]|]. split; [apply (parent_trans _ a); [exact P|exists b; exact E]|exact M].
    - intros X _ _ I. apply G; auto. }
  destruct K as (K1 & K2 & K3 & K4 & K5).
  assert (PD : rc1 = PAM_SUCCESS -> forall a0 b0, dir = (a0 ++ "/"%char :: b0)%list -> ~ In "/"%char b0 -> a0 <> [] -> stat a0 = Missing -> In "/"%char a0 -> mkdir a0 <> Refused).
  { intros X a0 b0 E0 NB0. pose proof (proj2 (last_slash_some dir a b) (conj E NB)) as Y1. pose proof (proj2 (last_slash_some dir a0 b0) (conj E0 NB0)) as Y2. rewrite Y1 in Y2. injection Y2 as <- <-. apply K4; exact X. }
  assert (K1' : forall m, In m ms1 -> (m = dir /\ make = true) \/ (parent_of m dir /\ stat m = Missing)) by (intros m I; right; auto).
  destruct (Z.eqb_spec rc1 PAM_SUCCESS) as [->|NS]; cbn [negb] in H.
  2:{ injection H as <- <-. split; [exact K1'|]. split; [exact K2|]. split; [exact K3|]. split; [intro; congruence|exact K5]. }
  destruct make; [|injection H as <- <-; split; [exact K1'|]; split; [exact K2|]; split; [exact K3|]; split; [intros _; split; [discriminate|exact (PD eq_refl)]|auto]].
  destruct (mkdir dir) eqn:MK; injection H as <- <-.
  - split; [intros m I; apply in_app_iff in I; destruct I as [I|[<-|[]]]; auto|]. split; [intros m I; apply in_app_iff in I; destruct I as [I|[<-|[]]]; auto|].
    split; [|split; [intros _; split; [congruence|exact (PD eq_refl)]|auto]]. intros a1 x b1 y c1 X. destruct c1 as [|c c1 _] using rev_ind.
    + replace (a1 ++ x :: b1 ++ [y])%list with ((a1 ++ x :: b1) ++ [y])%list in X by (rewrite <- app_assoc; reflexivity). apply app_inj_tail in X. destruct X as (X & <-). apply K1. rewrite X. apply in_or_app. right. left. reflexivity.
    + replace (a1 ++ x :: b1 ++ y :: c1 ++ [c])%list with ((a1 ++ x :: b1 ++ y :: c1) ++ [c])%list in X by (rewrite <- !app_assoc; cbn; rewrite <- !app_assoc; reflexivity). apply app_inj_tail in X. destruct X as (X & _). exact (K3 _ _ _ _ _ X).
  - split; [exact K1'|]. split; [exact K2|]. split; [exact K3|]. split; [intros _; split; [congruence|exact (PD eq_refl)]|auto].
  - split; [exact K1'|]. split; [exact K2|]. split; [exact K3|]. split; [discriminate|auto].
Qed.
Lemma parents_end : forall fuel stat mkdir dir make, (length dir < fuel)%nat -> exists rc ms, make_parents fuel stat mkdir dir make = Ok (rc, ms).
Proof.
  induction fuel as [|k IH]; intros stat mkdir dir make L; [lia|]. cbn [make_parents]. destruct (last_slash dir) as [[a b]|] eqn:E; [|do 2 eexists; reflexivity]. apply last_slash_some in E. destruct E as (E & _).
  assert (B : exists rc ms, match a with [] => Ok (PAM_SUCCESS, []) | _ => match stat a with Missing => make_parents k stat mkdir a true | _ => Ok (PAM_SUCCESS, []) end end = Ok (rc, ms)).
  { destruct a as [|c a]; [do 2 eexists; reflexivity|]. destruct (stat (c :: a)); try (do 2 eexists; reflexivity). apply IH. rewrite E, app_length in L. cbn in *. lia. }
  destruct B as (rc & ms & ->). cbn [bind]. destruct (rc =? PAM_SUCCESS)%Z; cbn [negb]; [|do 2 eexists; reflexivity]. destruct make; [|do 2 eexists; reflexivity]. destruct (mkdir dir); do 2 eexists; reflexivity.
Qed.
(** C98: the parents made are directories above the home directory that were missing, the upper ones first. *)
Theorem mkhome_parents : forall fuel stat mkdir dir rc ms, make_parents fuel stat mkdir dir false = Ok (rc, ms) ->
  (forall m, In m ms -> parent_of m dir /\ stat m = Missing /\ mkdir m = Made) /\ (forall a x b y c, ms = (a ++ x :: b ++ y :: c)%list -> parent_of x y) /\
  (rc = PAM_SUCCESS -> forall a b, dir = (a ++ "/"%char :: b)%list -> ~ In "/"%char b -> stat a = Missing -> In "/"%char a -> mkdir a <> Refused).
Proof.
  intros fuel stat mkdir dir rc ms H. apply parents_spec in H. destruct H as (A & B & D & E & _). split; [|split; [exact D|]].
  - intros m I. destruct (A m I) as [(_ & X)|(P & M)]; [discriminate|]. auto.
  - intros X a b Y N M I. destruct (E X) as (_ & Z). apply (Z a b Y N); auto. intros ->. destruct I.
Qed.

Lemma slash_in : forall dir, In "/"%char dir -> exists a b, last_slash dir = Some (a, b).
Proof.
  induction dir as [|c dir IH]; intro H; [destruct H|]. cbn [last_slash]. destruct (last_slash dir) as [[a b]|] eqn:E; [do 2 eexists; reflexivity|]. destruct H as [->|H]; [rewrite Ascii.eqb_refl; do 2 eexists; reflexivity|]. destruct (IH H) as (a & b & X). discriminate.
Qed.
(** C98: the helper always comes to an end with a status. *)
Theorem mkhome_defined : forall W args, exists d, helper W args = Ok d /\ In (d_rc d) [PAM_SUCCESS; PAM_PERM_DENIED; PAM_BUF_ERR; PAM_SESSION_ERR; PAM_USER_UNKNOWN].
Proof.
  assert (CR : forall fuel C p dm s v t rc t', create fuel C p dm s v t = Ok (rc, t') -> In rc [PAM_SUCCESS; PAM_PERM_DENIED; PAM_BUF_ERR]).
  { induction fuel as [|k IH]; intros C p dm s v t rc t' H; cbn [create] in H; [discriminate|]. assert (D0 : In PAM_SUCCESS [PAM_SUCCESS; PAM_PERM_DENIED; PAM_BUF_ERR]) by (cbn; auto). assert (D1 : In PAM_PERM_DENIED [PAM_SUCCESS; PAM_PERM_DENIED; PAM_BUF_ERR]) by (cbn; auto). assert (D2 : In PAM_BUF_ERR [PAM_SUCCESS; PAM_PERM_DENIED; PAM_BUF_ERR]) by (cbn; auto).
    destruct (_ || _); [injection H as <- _; exact D0|]. destruct (s_files t p); [injection H as <- _; exact D0|]. destruct (_ || _); [injection H as <- _; exact D1|].
    assert (SO : forall b s v t rc t', copy_source (create k C) C p dm b s v t = Ok (rc, t') -> In rc [PAM_SUCCESS; PAM_PERM_DENIED; PAM_BUF_ERR]).
    { clear H. intros b s0 v0 t0 rc0 t0' H. unfold copy_source in H. destruct s0 as [s0|]; [|injection H as <- _; exact D0]. destruct (if c_fails C (COpendir b) p then None else opened s0) as [es|]; [|injection H as <- _; exact D1].
      revert t0 H. induction es as [|[n e] es IHe]; intros t0 H; cbn [copy_entries] in H; [injection H as <- _; exact D0|]. destruct (_ || _); [exact (IHe _ H)|].
      destruct (copy_entry (create k C) C p dm n e v0 t0) as [[rc1 t1]| |] eqn:E; cbn [bind] in H; try discriminate. destruct (rc1 =? PAM_SUCCESS)%Z; [exact (IHe _ H)|injection H as <- _].
      unfold copy_entry in E. cbv zeta in E. repeat match type of E with context [if ?b then _ else _] => destruct b | context [match ?x with _ => _ end] => destruct x end; try (injection E as <- _; assumption); exact (IH _ _ _ _ _ _ _ _ E). }
    match type of H with bind ?e _ = _ => destruct e as [[rc2 t2]| |] eqn:B; cbn [bind] in H; try discriminate end. assert (R2 : In rc2 [PAM_SUCCESS; PAM_PERM_DENIED; PAM_BUF_ERR]).
    { destruct (c_fails C CAt p); [injection B as <- _; exact D1|]. destruct (copy_source (create k C) C p dm false s v _) as [[rc3 t3]| |] eqn:S1; cbn [bind] in B; try discriminate. destruct (rc3 =? PAM_SUCCESS)%Z; [exact (SO _ _ _ _ _ _ B)|injection B as <- _; exact (SO _ _ _ _ _ _ S1)]. }
    destruct (c_fails C CChmod p); [injection H as <- _; exact D1|]. destruct (c_fails C CChown p); injection H as <- _; assumption. }
  intros W args. unfold helper. cbv zeta. assert (ST : forall rc ms b, In rc [PAM_SUCCESS; PAM_PERM_DENIED; PAM_BUF_ERR; PAM_SESSION_ERR; PAM_USER_UNKNOWN] -> exists d, Ok (mkDone rc ms b) = Ok d /\ In (d_rc d) [PAM_SUCCESS; PAM_PERM_DENIED; PAM_BUF_ERR; PAM_SESSION_ERR; PAM_USER_UNKNOWN]) by (intros; eexists; split; [reflexivity|assumption]).
  destruct args as [|user args]; [apply ST; cbn; tauto|]. destruct (w_user W user) as [[[dir uid] gid]|]; [|apply ST; cbn; tauto]. destruct (match args with [] => _ | m :: _ => _ end) as [um|]; [|apply ST; cbn; tauto].
  destruct (match args with _ :: _ :: m :: _ => number m | _ => Some 0%Z end) as [mo|]; [|apply ST; cbn; tauto]. destruct dir as [|c dir]; [apply ST; cbn; tauto|]. destruct (Ascii.eqb_spec c "/"%char) as [->|]; cbn [negb]; [|apply ST; cbn; tauto].
  set (full := "/"%char :: dir). assert (HH : exists d, bind (make_parents (S (length full)) (w_stat W) (w_mkdir W) full false) (fun r => let '(rc, ms) := r in
    if negb (rc =? PAM_SUCCESS)%Z then Ok (mkDone PAM_PERM_DENIED ms None) else match last_slash full with None => UB | Some (a, name) =>
      if negb (w_open W (match a with [] => lit "/" | _ => a end)) then Ok (mkDone PAM_PERM_DENIED ms None) else
      bind (create (S (Nat.max (ho (skeleton W (match args with _ :: sk :: _ => sk | _ => lit "/etc/skel" end))) (ho (match args with _ :: _ :: _ :: vd :: _ => skeleton W vd | _ => None end)))) (mkConf (w_fails W) (w_part W) uid gid um) [name] (Z.land (if (mo =? 0)%Z then Z.ldiff 511 um else mo) 4095) (skeleton W (match args with _ :: sk :: _ => sk | _ => lit "/etc/skel" end)) (match args with _ :: _ :: _ :: vd :: _ => skeleton W vd | _ => None end) (mkState (w_files W (match a with [] => lit "/" | _ => a end)) []))
        (fun r => Ok (mkDone (fst r) ms (Some (match a with [] => lit "/" | _ => a end, [name], snd r)))) end) = Ok d /\ In (d_rc d) [PAM_SUCCESS; PAM_PERM_DENIED; PAM_BUF_ERR; PAM_SESSION_ERR; PAM_USER_UNKNOWN]).
  { destruct (parents_end (S (length full)) (w_stat W) (w_mkdir W) full false) as (rc & ms & ->); [lia|]. cbn [bind]. destruct (negb (rc =? PAM_SUCCESS)%Z); [apply ST; cbn; tauto|]. destruct (slash_in full) as (a & b & ->); [left; reflexivity|]. destruct (negb _); [apply ST; cbn; tauto|].
    match goal with |- context [create ?f ?C ?p ?dm ?s ?v ?t] => destruct (create_ends f C p dm s v t) as (rc1 & t1 & E); [lia|] end. pose proof (CR _ _ _ _ _ _ _ _ _ E) as R. rewrite E. cbn [bind fst snd]. apply ST. cbn in *. tauto. }
  destruct (w_stat W full); [apply ST; cbn; tauto|exact HH|exact HH].
Qed.

(** What the helper is told: the umask, the skeleton, the mode, the vendor's directory. *)
Definition told_mask (args : list cstr) (m : Z) : Prop := match nth_error args 0 with Some t => number t = Some m | None => m = 18%Z end.
Definition told_skel (args : list cstr) : cstr := match nth_error args 1 with Some t => t | None => lit "/etc/skel" end.
Definition told_mode (args : list cstr) (m : Z) : Prop := match nth_error args 2 with Some t => number t = Some m | None => m = 0%Z end.
Definition told_vendor (W : world) (args : list cstr) : option src := match nth_error args 3 with Some t => skeleton W t | None => None end.
Lemma helper_told : forall W user args d, helper W (user :: args) = Ok d -> d_rc d = PAM_SUCCESS ->
  exists dir uid gid mask mode, w_user W user = Some (dir, uid, gid) /\ hd_error dir = Some "/"%char /\ told_mask args mask /\ told_mode args mode /\
  ((w_stat W dir = Found /\ d_parents d = [] /\ d_below d = None) \/
   (w_stat W dir <> Found /\ exists a name t, dir = (a ++ "/"%char :: name)%list /\ ~ In "/"%char name /\
     let up := match a with [] => lit "/" | _ => a end in
     let sk := skeleton W (told_skel args) in let vd := told_vendor W args in
     d_below d = Some (up, [name], t) /\ (forall m, In m (d_parents d) -> parent_of m dir /\ w_stat W m = Missing /\ w_mkdir W m = Made) /\
     let C := mkConf (w_fails W) (w_part W) uid gid mask in let dm := Z.land (if (mode =? 0)%Z then Z.ldiff 511 mask else mode) 4095 in
     (exists fuel, create fuel C [name] dm sk vd (mkState (w_files W up) []) = Ok (PAM_SUCCESS, t)) /\
     (looks C -> wfo sk -> wfo vd -> dots name = false -> (forall x, w_files W up (name :: x) = None) -> forall x, s_files t (name :: x) = want C x dm sk vd))).
Proof.
  intros W user args d H R. unfold helper in H. cbv zeta in H. destruct (w_user W user) as [[[dir uid] gid]|]; [|injection H as <-; discriminate].
  destruct (match args with [] => Some 18%Z | m :: _ => number m end) as [um|] eqn:EM; [|injection H as <-; discriminate]. destruct (match args with _ :: _ :: m :: _ => number m | _ => Some 0%Z end) as [mo|] eqn:EO; [|injection H as <-; discriminate].
  assert (TM : told_mask args um) by (unfold told_mask; destruct args; cbn [nth_error]; congruence). assert (TO : told_mode args mo) by (unfold told_mode; destruct args as [|? [|? [|? ?]]]; cbn [nth_error]; congruence).
  assert (SK : match args with _ :: sk :: _ => sk | _ => lit "/etc/skel" end = told_skel args) by (destruct args as [|? [|? ?]]; reflexivity). assert (VD : match args with _ :: _ :: _ :: vd :: _ => skeleton W vd | _ => None end = told_vendor W args) by (destruct args as [|? [|? [|? [|? ?]]]]; reflexivity).
  rewrite SK, VD in H. clear EM EO SK VD. destruct dir as [|c dir]; [injection H as <-; discriminate|]. destruct (Ascii.eqb_spec c "/"%char) as [->|]; cbn [negb] in H; [|injection H as <-; discriminate].
  set (full := "/"%char :: dir) in *. exists full, uid, gid, um, mo. split; [reflexivity|]. split; [reflexivity|]. split; [exact TM|]. split; [exact TO|].
  assert (G : forall x, w_stat W full = x -> x <> Found -> bind (make_parents (S (length full)) (w_stat W) (w_mkdir W) full false) (fun r => let '(rc, ms) := r in
    if negb (rc =? PAM_SUCCESS)%Z then Ok (mkDone PAM_PERM_DENIED ms None) else match last_slash full with None => UB | Some (a, name) =>
      if negb (w_open W (match a with [] => lit "/" | _ => a end)) then Ok (mkDone PAM_PERM_DENIED ms None) else
      bind (create (S (Nat.max (ho (skeleton W (told_skel args))) (ho (told_vendor W args)))) (mkConf (w_fails W) (w_part W) uid gid um) [name] (Z.land (if (mo =? 0)%Z then Z.ldiff 511 um else mo) 4095) (skeleton W (told_skel args)) (told_vendor W args) (mkState (w_files W (match a with [] => lit "/" | _ => a end)) []))
        (fun r => Ok (mkDone (fst r) ms (Some (match a with [] => lit "/" | _ => a end, [name], snd r)))) end) = Ok d ->
    (w_stat W full <> Found /\ exists a name t, full = (a ++ "/"%char :: name)%list /\ ~ In "/"%char name /\
     let up := match a with [] => lit "/" | _ => a end in
     let sk := skeleton W (told_skel args) in let vd := told_vendor W args in
     d_below d = Some (up, [name], t) /\ (forall m, In m (d_parents d) -> parent_of m full /\ w_stat W m = Missing /\ w_mkdir W m = Made) /\
     let C := mkConf (w_fails W) (w_part W) uid gid um in let dm := Z.land (if (mo =? 0)%Z then Z.ldiff 511 um else mo) 4095 in
     (exists fuel, create fuel C [name] dm sk vd (mkState (w_files W up) []) = Ok (PAM_SUCCESS, t)) /\
     (looks C -> wfo sk -> wfo vd -> dots name = false -> (forall x, w_files W up (name :: x) = None) -> forall x, s_files t (name :: x) = want C x dm sk vd))).
  { clear H. intros x X NX H. split; [congruence|]. destruct (make_parents (S (length full)) (w_stat W) (w_mkdir W) full false) as [[rc ms]| |] eqn:MP; cbn [bind] in H; try discriminate.
    destruct (negb (rc =? PAM_SUCCESS)%Z); [injection H as <-; discriminate|]. destruct (last_slash full) as [[a name]|] eqn:LS; [|discriminate]. apply last_slash_some in LS. destruct LS as (LS & NN). destruct (negb _); [injection H as <-; discriminate|].
    match type of H with bind ?e _ = _ => destruct e as [[rc1 t]| |] eqn:CR; cbn [bind fst snd] in H; try discriminate end. injection H as <-. cbn [d_rc d_below d_parents] in *. subst rc1.
    exists a, name, t. split; [exact LS|]. split; [exact NN|]. cbv zeta. split; [reflexivity|]. split; [exact (proj1 (mkhome_parents _ _ _ _ _ _ MP))|]. split; [eexists; exact CR|].
    intros L W1 W2 D N y. exact (mkhome_copy _ _ [name] _ _ _ _ _ CR L W1 W2 D N y). }
  destruct (w_stat W full) eqn:ST; [left; injection H as <-; auto|right; apply (G Missing); [reflexivity|discriminate|exact H]|right; apply (G Unknown); [reflexivity|discriminate|exact H]].
Qed.
(** A source directory by its name: none for the empty name, and nothing to copy where it cannot be opened. *)
Definition named (W : world) (name : cstr) : option src := match name with [] => None | _ => Some match w_skel W name with Some s => s | None => SOther end end.
Definition named_vendor (W : world) (args : list cstr) : option src := match nth_error args 3 with Some t => named W t | None => None end.
(** C98: the helper's success. *)
Theorem mkhome_helper : forall W user args d, helper W (user :: args) = Ok d -> d_rc d = PAM_SUCCESS ->
  exists dir uid gid mask mode, w_user W user = Some (dir, uid, gid) /\ hd_error dir = Some "/"%char /\ told_mask args mask /\ told_mode args mode /\
  ((w_stat W dir = Found /\ d_parents d = [] /\ d_below d = None) \/
   (w_stat W dir <> Found /\ exists a name t, dir = (a ++ "/"%char :: name)%list /\ ~ In "/"%char name /\
     let up := match a with [] => lit "/" | _ => a end in
     let sk := named W (told_skel args) in let vd := named_vendor W args in
     d_below d = Some (up, [name], t) /\ (forall m, In m (d_parents d) -> parent_of m dir /\ w_stat W m = Missing /\ w_mkdir W m = Made) /\
     let C := mkConf (w_fails W) (w_part W) uid gid mask in let dm := Z.land (if (mode =? 0)%Z then Z.ldiff 511 mask else mode) 4095 in
     (exists fuel, create fuel C [name] dm sk vd (mkState (w_files W up) []) = Ok (PAM_SUCCESS, t)) /\
     (looks C -> wfo sk -> wfo vd -> dots name = false -> (forall x, w_files W up (name :: x) = None) -> forall x, s_files t (name :: x) = want C x dm sk vd))).
Proof. exact helper_told. Qed.

(** ** The module *)
Definition gives_mask (a : cstr) (x : option cstr) : Prop := exists s, x = Some s /\ a = (lit "umask=" ++ s)%list.
Definition gives_skel (a : cstr) (x : option cstr) : Prop := exists s, x = Some s /\ a = (lit "skel=" ++ s)%list.
(** C98: the options. *)
Theorem mkhome_options : forall silent args, latest gives_mask args None (o_umask (parse silent args)) /\ latest gives_skel args None (o_skel (parse silent args)) /\ (o_quiet (parse silent args) = true <-> silent = true \/ In (lit "silent") args).
Proof.
  intros silent args. unfold parse. split; [|split].
  - apply (latest_fold gives_mask parse_step o_umask args) with (t := mkOptions silent None None). intros t a _. unfold parse_step. destruct (streq a (lit "silent")) eqn:E1; [apply streq_eq in E1; subst; right; split; [intros y (s & _ & X); discriminate|reflexivity]|].
    destruct (streq a (lit "debug")) eqn:E2; [apply streq_eq in E2; subst; right; split; [intros y (s & _ & X); discriminate|reflexivity]|]. destruct (skip_prefix (lit "umask=") a) as [s|] eqn:E3; [left; exists s; split; [reflexivity|apply skip_prefix_some; exact E3]|].
    right. split; [|destruct (skip_prefix (lit "skel=") a); reflexivity]. intros y (s & _ & X). apply skip_prefix_some in X. congruence.
  - apply (latest_fold gives_skel parse_step o_skel args) with (t := mkOptions silent None None). intros t a _. unfold parse_step. destruct (streq a (lit "silent")) eqn:E1; [apply streq_eq in E1; subst; right; split; [intros y (s & _ & X); discriminate|reflexivity]|].
    destruct (streq a (lit "debug")) eqn:E2; [apply streq_eq in E2; subst; right; split; [intros y (s & _ & X); discriminate|reflexivity]|]. destruct (skip_prefix (lit "umask=") a) as [s|] eqn:E3; [right; split; [|reflexivity]; intros y (r & _ & ->); apply skip_prefix_some in E3; discriminate|].
    destruct (skip_prefix (lit "skel=") a) as [s|] eqn:E4; [left; exists s; split; [reflexivity|apply skip_prefix_some; exact E4]|right; split; [|reflexivity]]. intros y (s & _ & X). apply skip_prefix_some in X. congruence.
  - assert (G : forall args o, o_quiet (fold_left parse_step args o) = true <-> o_quiet o = true \/ In (lit "silent") args).
    { clear. induction args as [|a args IH]; intro o; cbn [fold_left In]; [tauto|]. rewrite IH. assert (Q : o_quiet (parse_step o a) = true <-> o_quiet o = true \/ a = lit "silent").
      { unfold parse_step. destruct (streq a (lit "silent")) eqn:E1; [apply streq_eq in E1; subst; cbn [o_quiet]; tauto|]. assert (N : a <> lit "silent") by (intros ->; rewrite streq_refl in E1; discriminate). destruct (streq a (lit "debug")); [tauto|]. destruct (skip_prefix (lit "umask=") a); [cbn [o_quiet]; tauto|]. destruct (skip_prefix (lit "skel=") a); cbn [o_quiet]; tauto. }
      rewrite Q. tauto. }
    rewrite G. reflexivity.
Qed.
Example mkhome_options_example : parse false [lit "umask=0022"; lit "debug"; lit "skel=/a"; lit "umask=0077"; lit "silent"] = mkOptions true (Some (lit "0077")) (Some (lit "/a")).
Proof. reflexivity. Qed.

(** What the helper is run with. *)
Definition or_else (o : option cstr) (s : cstr) : cstr := match o with Some x => x | None => s end.
Definition home_mode (E : env) (o : options) (m : option cstr) : Prop :=
  (exists t, m = Some t /\ o_umask o = None /\ e_defs E (lit "HOME_MODE") = Some t) \/
  ((o_umask o <> None \/ e_defs E (lit "HOME_MODE") = None) /\ m = if e_alloc E then Some (homemode (match o_umask o with Some t => t | None => or_else (e_defs E (lit "UMASK")) (lit "0022") end)) else None).
(** C98: the session is opened if and only if the home directory is there or the helper, run for this user with these arguments, says so; the result is the helper's otherwise;
    the user is told, unless that is not wanted, that the directory is being made and that it could not be. *)
Theorem mkhome_session : forall E silent args r, open_session E silent args = r ->
  let o := parse silent args in
  (r_rc r = PAM_SUCCESS <-> exists user dir, e_user E = (PAM_SUCCESS, Some user) /\ user <> [] /\ e_dir E user = Some dir /\
     (e_stat E dir = true \/ e_fork E = true /\ e_wait E = true /\ exists l, r_ran r = Some l /\ e_helper E l = Exited PAM_SUCCESS)) /\
  (forall l, r_ran r = Some l -> exists user dir m, e_user E = (PAM_SUCCESS, Some user) /\ user <> [] /\ e_dir E user = Some dir /\ e_stat E dir = false /\ home_mode E o m /\
     l = (lit "mkhomedir_helper" :: user :: or_else (o_umask o) (lit "0022") :: or_else (o_skel o) (lit "/etc/skel") :: match m with Some t => t :: match o_skel o, e_vendor E with None, Some v => [v] | _, _ => [] end | None => [] end)%list /\
     r_rc r = if e_wait E then match e_helper E l with Exited c => c | Killed => PAM_SYSTEM_ERR end else PAM_SYSTEM_ERR) /\
  (r_told r <> [] -> o_quiet o = false) /\
  (forall user dir, e_user E = (PAM_SUCCESS, Some user) -> user <> [] -> e_dir E user = Some dir -> e_stat E dir = false -> o_quiet o = false -> r_told r = Creating dir :: if (r_rc r =? PAM_SUCCESS)%Z then [] else [Unable dir]) /\
  (forall user, e_user E = (PAM_SUCCESS, Some user) -> e_dir E user = None -> r_rc r = PAM_USER_UNKNOWN).
Proof.
  intros E silent args r H o. unfold open_session in H. cbv zeta in H. fold o in H.
  assert (ST : forall rc, rc <> PAM_SUCCESS -> mkResult rc [] None = r -> r_rc r <> PAM_SUCCESS /\ r_ran r = None /\ r_told r = []) by (intros rc N <-; auto).
  assert (B : (exists user, e_user E = (PAM_SUCCESS, Some user) /\ user <> [] /\ match e_dir E user with None => mkResult PAM_USER_UNKNOWN [] None | Some dir => if e_stat E dir then mkResult PAM_SUCCESS [] None else run_helper E o user dir end = r) \/
    (~ (exists user, e_user E = (PAM_SUCCESS, Some user) /\ user <> []) /\ mkResult PAM_USER_UNKNOWN [] None = r)).
  { destruct (e_user E) as [rc [[|c u]|]]; [right; split; [|destruct rc; exact H]; intros (x & X & N); injection X as _ <-; contradiction| |right; split; [|destruct rc; exact H]; intros (x & X & N); discriminate].
    destruct rc; [left; exists (c :: u); split; [reflexivity|]; split; [discriminate|exact H]| |]; right; (split; [|exact H]); intros (x & X & N); discriminate. }
  clear H. destruct B as [(user & EU & NU & B)|(NE & B)].
  2:{ destruct (ST PAM_USER_UNKNOWN ltac:(discriminate) B) as (R1 & R2 & R3). split; [split; [contradiction|intros (u & d & X & Y & _); exfalso; apply NE; exists u; auto]|]. split; [congruence|]. split; [rewrite R3; contradiction|]. split; [intros u d X Y; exfalso; apply NE; exists u; auto|]. intros u _ _. rewrite <- B. reflexivity. }
  assert (UE : forall u, e_user E = (PAM_SUCCESS, Some u) -> u = user) by (intros u X; congruence).
  destruct (e_dir E user) as [dir|] eqn:ED.
  2:{ destruct (ST PAM_USER_UNKNOWN ltac:(discriminate) B) as (R1 & R2 & R3). split; [split; [contradiction|intros (u & d & X & Y & Q & _); apply UE in X; congruence]|]. split; [congruence|]. split; [rewrite R3; contradiction|]. split; [intros u d X Y Q; apply UE in X; congruence|]. intros u _ _. rewrite <- B. reflexivity. }
  destruct (e_stat E dir) eqn:ES.
  { subst r. split; [split; [intros _; exists user, dir; auto|reflexivity]|]. split; [discriminate|]. split; [contradiction|]. split; [intros u d X Y Q; apply UE in X; congruence|]. intros u X Y. apply UE in X. congruence. }
  unfold run_helper in B. cbv zeta in B.
  match type of B with context [match ?x with None => [] | Some m => _ end] => set (mode := x) in B end.
  assert (HM : home_mode E o mode). { unfold home_mode, mode. destruct (o_umask o); [right; split; [left; discriminate|reflexivity]|]. destruct (e_defs E (lit "HOME_MODE")); [left; eexists; split; [reflexivity|split; [reflexivity|reflexivity]]|right; split; [right; reflexivity|reflexivity]]. }
  clearbody mode. fold (or_else (o_umask o) (lit "0022")) in B. fold (or_else (o_skel o) (lit "/etc/skel")) in B.
  match type of B with context [e_helper E ?x] => set (l := x) in B end.
  assert (K : (r_ran r = None /\ r_rc r = PAM_SYSTEM_ERR \/ r_ran r = Some l /\ e_fork E = true /\ r_rc r = if e_wait E then match e_helper E l with Exited c => c | Killed => PAM_SYSTEM_ERR end else PAM_SYSTEM_ERR) /\ r_told r = ((if o_quiet o then [] else [Creating dir]) ++ (if (r_rc r =? PAM_SUCCESS)%Z || o_quiet o then [] else [Unable dir]))%list).
  { destruct (e_fork E); cbn [negb] in B; [|destruct (negb (e_fds E && e_exec E)); subst r; (split; [left; auto|reflexivity])]. destruct (negb (e_fds E && e_exec E)); subst r; cbn [r_ran r_rc r_told]; (split; [|reflexivity]); [left|right]; destruct (e_wait E); auto. }
  clear B. destruct K as (K & T). split; [|split; [|split; [|split]]].
  - split.
    + intro X. exists user, dir. split; [exact EU|]. split; [exact NU|]. split; [exact ED|]. right. destruct K as [(_ & K)|(K1 & K2 & K3)]; [rewrite K in X; discriminate|]. rewrite X in K3. destruct (e_wait E); [|discriminate]. split; [exact K2|]. split; [reflexivity|]. exists l. split; [exact K1|]. destruct (e_helper E l); congruence.
    + intros (u & d & X & _ & Y & Q). apply UE in X. subst u. rewrite ED in Y. injection Y as <-. destruct Q as [Q|(_ & W & l' & R & X)]; [congruence|]. destruct K as [(K & _)|(K1 & _ & K3)]; [congruence|]. rewrite R in K1. injection K1 as ->. rewrite W, X in K3. exact K3.
  - intros l' X. destruct K as [(K & _)|(K1 & _ & K3)]; [congruence|]. rewrite X in K1. injection K1 as ->. exists user, dir, mode. split; [exact EU|]. split; [exact NU|]. split; [exact ED|]. split; [exact ES|]. split; [exact HM|]. split; [reflexivity|exact K3].
  - intro X. rewrite T in X. destruct (o_quiet o); [rewrite orb_true_r in X; contradiction|reflexivity].
  - intros u d X _ Y _ Q. apply UE in X. subst u. rewrite ED in Y. injection Y as <-. rewrite Q in T. rewrite orb_false_r in T. rewrite T at 1. cbn [app]. reflexivity.
  - intros u X Y. apply UE in X. congruence.
Qed.

(** ** The two readings of the umask *)
Lemma octal_back : forall m, (0 <= m <= 511)%Z -> number ("0"%char :: octal 4 m) = Some m.
Proof.
  assert (F : forallb (fun n => match number ("0"%char :: octal 4 (Z.of_nat n)) with Some k => (k =? Z.of_nat n)%Z | None => false end) (seq 0 512) = true) by (vm_compute; reflexivity).
  intros m M. rewrite forallb_forall in F. specialize (F (Z.to_nat m)). rewrite Z2Nat.id in F by lia. assert (I : In (Z.to_nat m) (seq 0 512)) by (apply in_seq; lia). specialize (F I).
  destruct (number ("0"%char :: octal 4 m)) as [k|]; [|discriminate]. apply Z.eqb_eq in F. congruence.
Qed.
Lemma ldiff_range : forall v, (0 <= Z.ldiff 511 v <= 511)%Z.
Proof. intro v. rewrite Z.ldiff_land, Z.land_comm. change 511%Z with (Z.ones 9) at 1 2. rewrite Z.land_ones by lia. pose proof (Z.mod_pos_bound (Z.lnot v) (2 ^ 9)). change (2 ^ 9)%Z with 512%Z in *. lia. Qed.
(** The value of octal digits. *)
Definition octal_value (ds : cstr) : Z := fold_left (fun a c => (a * 8 + hex_val c)%Z) ds 0%Z.
(** C98: for a umask written with a leading 0 the mode of the home directory the helper is told is what that umask leaves of 0777, and the helper reads
    the same umask; so without HOME_MODE it makes no difference whether the mode is passed. *)
Theorem mkhome_mode_agrees : forall ds, (forall c, In c ds -> (hex_val c < 8)%Z) -> (octal_value ds <= ULONG_MAX)%Z ->
  number ("0"%char :: ds) = Some (octal_value ds) /\ number (homemode ("0"%char :: ds)) = Some (Z.ldiff 511 (octal_value ds)).
Proof.
  intros ds D L. assert (ND : ("0"%char :: ds)%list = ([] ++ "0"%char :: ds)%list) by reflexivity.
  assert (DI : digits_in 8 ("0"%char :: ds) 0%Z 0 = (octal_value ds, S (length ds), [])).
  { rewrite digits_in_all by (intros c [<-|I]; [reflexivity|exact (D c I)]). reflexivity. }
  assert (S1 : sign (skip_spaces ("0"%char :: ds)) = (false, "0"%char :: ds)) by reflexivity.
  assert (LT : (ULONG_MAX <? octal_value ds)%Z = false) by (apply Z.ltb_ge; exact L). split.
  - unfold number, strtoul0. rewrite S1. assert (M : match "0"%char :: ds with
      | z :: x :: d :: _ => if Ascii.eqb z "0"%char && Ascii.eqb (tolower x) "x"%char && (hex_val d <? 16)%Z then digits_in 16 (skipn 2 ("0"%char :: ds)) 0%Z 0%nat else if Ascii.eqb z "0"%char then digits_in 8 ("0"%char :: ds) 0%Z 0%nat else digits_in 10 ("0"%char :: ds) 0%Z 0%nat
      | z :: _ => if Ascii.eqb z "0"%char then digits_in 8 ("0"%char :: ds) 0%Z 0%nat else digits_in 10 ("0"%char :: ds) 0%Z 0%nat
      | [] => (0%Z, 0%nat, []) end = (octal_value ds, S (length ds), [])).
    { destruct ds as [|x [|d ds]]; try exact DI. replace (Ascii.eqb (tolower x) "x"%char) with false; [exact DI|]. symmetry. destruct (Ascii.eqb_spec (tolower x) "x"%char) as [X|]; [|reflexivity]. exfalso. specialize (D x (or_introl eq_refl)). clear - D X. revert X D. destruct x as [[|] [|] [|] [|] [|] [|] [|] [|]]; vm_compute; intros; discriminate. }
    rewrite M. cbn [Nat.eqb]. rewrite LT. reflexivity.
  - unfold homemode, strtoul. rewrite S1, DI. cbn [Nat.eqb]. rewrite LT. cbn [fst]. apply octal_back, ldiff_range.
Qed.
Example mkhome_mode_agrees_example : number (lit "0077") = Some 63%Z /\ homemode (lit "0077") = lit "0700" /\ number (lit "0700") = Some 448%Z.
Proof. repeat split. Qed.
Example mkhome_session_example :
  let E := mkEnv (PAM_SUCCESS, Some (lit "ann")) (fun _ => Some (lit "/home/ann")) (fun _ => false) (fun _ => None) true true true true (fun l => if streq (nth 4 l []) (lit "0750") then Exited PAM_SUCCESS else Killed) true (Some (lit "/usr/etc/skel")) in
  open_session E false [lit "umask=0027"] = mkResult PAM_SUCCESS [Creating (lit "/home/ann")] (Some [lit "mkhomedir_helper"; lit "ann"; lit "0027"; lit "/etc/skel"; lit "0750"; lit "/usr/etc/skel"]) /\
  open_session E false [] = mkResult PAM_SYSTEM_ERR [Creating (lit "/home/ann"); Unable (lit "/home/ann")] (Some [lit "mkhomedir_helper"; lit "ann"; lit "0022"; lit "/etc/skel"; lit "0755"; lit "/usr/etc/skel"]).
Proof. split; reflexivity. Qed.

(** ** Examples *)
Definition skel1 : src := SDir [(lit ".", SOther); (lit ".bashrc", SFile 420 (lit "rc")); (lit "bin", SDir [(lit "run", SFile 2541 (lit "y"))]); (lit "l", SLink (lit "bin") (SDir [])); (lit "fifo", SOther)].
Definition vendor1 : src := SDir [(lit ".bashrc", SFile 384 (lit "vendor")); (lit "v", SFile 420 (lit "v")); (lit "bin", SDir [(lit "two", SFile 292 (lit "z"))])].
Definition world1 (fails : call -> path -> bool) (stat : cstr -> there) (f : files) : world :=
  mkWorld (fun u => if streq u (lit "ann") then Some (lit "/home/ann", 1000%Z, 100%Z) else if streq u (lit "bob") then Some (lit "/home/bob/", 1001%Z, 100%Z) else None)
    (fun n => if streq n (lit "/etc/skel") then Some skel1 else if streq n (lit "/v") then Some vendor1 else None) stat (fun _ => Made) (fun _ => true) fails (fun _ => 1%nat) (fun _ => f).
Definition gone (p : cstr) : there := if streq p (lit "/") then Found else Missing.
Definition never (c : call) (p : path) : bool := false.
Definition empty : files := fun _ => None.
Definition seen (r : res done) (p : path) : option (Z * list cstr * option node) :=
  match r with Ok d => Some (d_rc d, d_parents d, match d_below d with Some (_, _, t) => s_files t p | None => None end) | _ => None end.
Example mkhome_helper_example :
  let r := helper (world1 never gone empty) [lit "ann"; lit "0027"; lit "/etc/skel"; lit "0750"; lit "/v"] in
  seen r [lit "ann"] = Some (PAM_SUCCESS, [lit "/home"], Some (mkNode KDir 488 1000 100)) /\
  seen r [lit "ann"; lit ".bashrc"] = Some (PAM_SUCCESS, [lit "/home"], Some (mkNode (KFile (lit "rc")) 416 1000 100)) /\
  seen r [lit "ann"; lit "bin"; lit "run"] = Some (PAM_SUCCESS, [lit "/home"], Some (mkNode (KFile (lit "y")) 488 1000 100)) /\
  seen r [lit "ann"; lit "bin"; lit "two"] = Some (PAM_SUCCESS, [lit "/home"], Some (mkNode (KFile (lit "z")) 416 1000 100)) /\
  seen r [lit "ann"; lit "l"] = Some (PAM_SUCCESS, [lit "/home"], Some (mkNode (KLink (lit "bin")) 511 1000 100)) /\
  seen r [lit "ann"; lit "v"] = Some (PAM_SUCCESS, [lit "/home"], Some (mkNode (KFile (lit "v")) 416 1000 100)) /\
  seen r [lit "ann"; lit "fifo"] = Some (PAM_SUCCESS, [lit "/home"], None).
Proof. repeat split; vm_compute; reflexivity. Qed.

Example mkhome_safe_example : exists t, create 4 (mkConf never (fun _ => O) 1000 100 23) [lit "ann"] 488 (Some skel1) (Some vendor1) (mkState empty []) = Ok (PAM_SUCCESS, t) /\
  firstn 3 (s_trace t) = [EMkdir [lit "ann"]; ECreate [lit "ann"; lit ".bashrc"]; EChmod [lit "ann"; lit ".bashrc"] 416] /\
  skipn (length (s_trace t) - 2) (s_trace t) = [EChmod [lit "ann"] 488; EChown [lit "ann"] 1000 100] /\ looks (mkConf never (fun _ => O) 1000 100 23) /\ wfo (Some skel1) /\ wfo (Some vendor1).
Proof.
  eexists. split; [vm_compute; reflexivity|]. split; [reflexivity|]. split; [reflexivity|]. split; [intro p; auto|].
  assert (ND : forall l : list cstr, (fix nd l := match l with [] => true | x :: l => negb (existsb (streq x) l) && nd l end) l = true -> NoDup l).
  { induction l as [|x l IH]; intro H; [constructor|]. apply andb_true_iff in H. destruct H as (A & B). constructor; [|exact (IH B)]. intro I. apply negb_true_iff in A. assert (X : existsb (streq x) l = true) by (apply existsb_exists; exists x; split; [exact I|apply streq_refl]). congruence. }
  split; intros s X; injection X as <-; (constructor; [apply ND; reflexivity|]); intros n s I; cbn in I; repeat (destruct I as [I|I]; [injection I as <- <-; repeat constructor; try (apply ND; reflexivity); cbn; try tauto|]); try destruct I;
    intros n s I; cbn in I; repeat (destruct I as [I|I]; [injection I as <- <-; repeat constructor|]); destruct I.
Qed.

(** ** What does not hold *)
(** C98: umask=77 is octal for the module and decimal for the helper: the home directory has mode 0700, but the files in it are writable by everybody. *)
Theorem mkhome_umask_refuted : exists W d t n, homemode (lit "77") = lit "0700" /\ helper W [lit "ann"; lit "77"; lit "/etc/skel"; homemode (lit "77")] = Ok d /\ d_rc d = PAM_SUCCESS /\ d_below d = Some (lit "/home", [lit "ann"], t) /\
  s_files t [lit "ann"] = Some (mkNode KDir 448 1000 100) /\ s_files t [lit "ann"; lit ".bashrc"] = Some n /\ n_kind n = KFile (lit "rc") /\ n_mode n = 434%Z /\ Z.testbit (n_mode n) 1 = true.
Proof.
  destruct (helper (world1 never gone empty) [lit "ann"; lit "77"; lit "/etc/skel"; homemode (lit "77")]) as [d| |] eqn:H; [|vm_compute in H; discriminate|vm_compute in H; discriminate].
  exists (world1 never gone empty), d. vm_compute in H. injection H as <-. do 2 eexists. split; [vm_compute; reflexivity|]. split; [vm_compute; reflexivity|]. split; [reflexivity|]. split; [reflexivity|]. repeat split; vm_compute; reflexivity.
Qed.
(** C98: UMASK of /etc/login.defs counts for the home directory only: the helper is told 0022 for the files. *)
Theorem mkhome_defs_refuted : exists E l d t n, e_defs E (lit "UMASK") = Some (lit "0077") /\ r_ran (open_session E false []) = Some (lit "mkhomedir_helper" :: l) /\ nth_error l 1 = Some (lit "0022") /\
  helper (world1 never gone empty) l = Ok d /\ d_below d = Some (lit "/home", [lit "ann"], t) /\ s_files t [lit "ann"] = Some (mkNode KDir 448 1000 100) /\ s_files t [lit "ann"; lit ".bashrc"] = Some n /\ n_mode n = 420%Z.
Proof.
  exists (mkEnv (PAM_SUCCESS, Some (lit "ann")) (fun _ => Some (lit "/home/ann")) (fun _ => false) (fun k => if streq k (lit "UMASK") then Some (lit "0077") else None) true true true true (fun _ => Exited PAM_SUCCESS) true None).
  destruct (helper (world1 never gone empty) [lit "ann"; lit "0022"; lit "/etc/skel"; lit "0700"]) as [d| |] eqn:H; [|vm_compute in H; discriminate|vm_compute in H; discriminate].
  exists [lit "ann"; lit "0022"; lit "/etc/skel"; lit "0700"], d. rewrite H. vm_compute in H. injection H as <-. do 2 eexists. repeat split; vm_compute; reflexivity.
Qed.
(** C98: success without a home directory: there is a link that leads nowhere in its place. *)
Theorem mkhome_dangling_refuted : exists W d t, w_stat W (lit "/home/ann") = Missing /\ helper W [lit "ann"; lit "0022"] = Ok d /\ d_rc d = PAM_SUCCESS /\ d_below d = Some (lit "/home", [lit "ann"], t) /\ s_trace t = [] /\ s_files t [lit "ann"] = Some (mkNode (KLink (lit "/gone")) 511 0 0).
Proof.
  exists (world1 never gone (fun p => if peq p [lit "ann"] then Some (mkNode (KLink (lit "/gone")) 511 0 0) else None)). do 2 eexists. split; [reflexivity|]. split; [vm_compute; reflexivity|]. repeat split.
Qed.
(** C98: a home directory written with a slash at the end: the directory is made as a parent, root's, and then the helper fails; at the next try it is there, and that is success. *)
Theorem mkhome_slash_refuted : exists W d W', helper W [lit "bob"; lit "0022"] = Ok d /\ d_rc d = PAM_PERM_DENIED /\ In (lit "/home/bob") (d_parents d) /\
  (forall p, w_stat W' p = if streq p (lit "/home/bob/") then Found else w_stat W p) /\ helper W' [lit "bob"; lit "0022"] = Ok (mkDone PAM_SUCCESS [] None).
Proof.
  exists (world1 never gone empty). eexists. exists (world1 never (fun p => if streq p (lit "/home/bob/") then Found else gone p) empty). split; [vm_compute; reflexivity|]. split; [reflexivity|]. split; [right; left; reflexivity|]. split; reflexivity.
Qed.
(** C98: a file of the skeleton that cannot be looked at is left out, and that is success. *)
Theorem mkhome_skipped_refuted : exists W d t, helper W [lit "ann"; lit "0022"] = Ok d /\ d_rc d = PAM_SUCCESS /\ d_below d = Some (lit "/home", [lit "ann"], t) /\ s_files t [lit "ann"; lit ".bashrc"] = None /\ exists n, s_files t [lit "ann"; lit "l"] = Some n.
Proof.
  exists (world1 (fun c p => match c with CLstat => peq p [lit "ann"; lit ".bashrc"] | _ => false end) gone empty). do 2 eexists. split; [vm_compute; reflexivity|]. split; [reflexivity|]. split; [reflexivity|]. split; [reflexivity|]. eexists. vm_compute. reflexivity.
Qed.
(** C98: a file that could not be copied as a whole: the helper fails, but the directory is there and the user's, with part of the file and without what comes after it; the next try is a success. *)
Theorem mkhome_retry_refuted : exists W d t W', helper W [lit "ann"; lit "0022"] = Ok d /\ d_rc d = PAM_PERM_DENIED /\ d_below d = Some (lit "/home", [lit "ann"], t) /\ s_files t [lit "ann"] = Some (mkNode KDir 493 1000 100) /\
  s_files t [lit "ann"; lit ".bashrc"] = Some (mkNode (KFile (lit "r")) 420 1000 100) /\ s_files t [lit "ann"; lit "bin"] = None /\
  (forall p, w_stat W' p = if streq p (lit "/home/ann") then Found else w_stat W p) /\ helper W' [lit "ann"; lit "0022"] = Ok (mkDone PAM_SUCCESS [] None).
Proof.
  exists (world1 (fun c p => match c with CCopy => true | _ => false end) gone empty). do 2 eexists. exists (world1 never (fun p => if streq p (lit "/home/ann") then Found else gone p) empty).
  split; [vm_compute; reflexivity|]. split; [reflexivity|]. split; [reflexivity|]. split; [vm_compute; reflexivity|]. split; [vm_compute; reflexivity|]. split; [vm_compute; reflexivity|]. split; reflexivity.
Qed.

Print Assumptions mkhome_safe.
Print Assumptions mkhome_kept.
Print Assumptions mkhome_copy.
Print Assumptions mkhome_modes.
Print Assumptions mkhome_parents.
Print Assumptions mkhome_defined.
Print Assumptions mkhome_helper.
Print Assumptions mkhome_options.
Print Assumptions mkhome_session.
Print Assumptions mkhome_mode_agrees.
