(** secure_opendir of pam_namespace: how the directory it returns is reached, what it protects, and its descriptors. *)
From Coq Require Import String Ascii List Arith ZArith Bool Lia.
From Verif Require Import Base Str_Model Str_Facts Opt_Model Opt_Facts Nsopen_Model.
Import ListNotations.

(** ** The statements *)
(** Owned by root and writable by nobody else. *)
Definition safe (F : fsys) (i : ino) : Prop := exists m es, F i = Some (NDir 0 m es) /\ Z.testbit m 4 = false /\ Z.testbit m 1 = false.
Definition is_dir (F : fsys) (i : ino) : Prop := exists u m es, F i = Some (NDir u m es).
(** The entry [c] of [d] is the directory [i] itself. *)
Definition plain (F : fsys) (d : ino) (c : cstr) (i : ino) : Prop := c <> [] /\ lookup F d c = Some i /\ is_dir F i.
(** The entry [c] of [d] is the directory [i] or a link that leads there. *)
Definition follow (F : fsys) (d : ino) (c : cstr) (i : ino) : Prop := c <> [] /\ resolve 40 F d c = Some i /\ is_dir F i.
(** From [d] to [e] through [cs], between the times [t] and [t'], links allowed, every directory reached found safe after it was opened. *)
Inductive led (fs : nat -> fsys) : nat -> ino -> list cstr -> ino -> nat -> Prop :=
| led_nil : forall t d t', t <= t' -> led fs t d [] d t'
| led_cons : forall t d c i cs e t1 t2 t', t <= t1 -> follow (fs t1) d c i -> t1 < t2 -> safe (fs t2) i -> led fs t2 i cs e t' -> led fs t d (c :: cs) e t'.
(** From [d] to [e] through [cs], every component a directory itself. *)
Inductive straight (fs : nat -> fsys) : nat -> ino -> list cstr -> ino -> nat -> Prop :=
| straight_nil : forall t d t', t <= t' -> straight fs t d [] d t'
| straight_cons : forall t d c i cs e t1 t', t <= t1 -> plain (fs t1) d c i -> straight fs t1 i cs e t' -> straight fs t d (c :: cs) e t'.
(** Components with slashes between them. *)
Fixpoint slashed (l : list cstr) : cstr := match l with [] => [] | [c] => c | c :: l => (c ++ "/"%char :: slashed l)%list end.

Lemma safe_iff : forall F i, safe F i <-> exists u m es, F i = Some (NDir u m es) /\ unsafe u m = false.
Proof.
  assert (B : forall m, Z.land m 18 = 0%Z <-> Z.testbit m 4 = false /\ Z.testbit m 1 = false).
  { intro m. split.
    - intro E. assert (X : forall k, Z.testbit (Z.land m 18) k = false) by (intro k; rewrite E; apply Z.testbit_0_l).
      split; [specialize (X 4%Z)|specialize (X 1%Z)]; rewrite Z.land_spec in X; cbn in X; rewrite andb_true_r in X; exact X.
    - intros [A C]. apply Z.bits_inj'. intros k K. rewrite Z.land_spec, Z.testbit_0_l.
      destruct (Z.eq_dec k 4) as [->|N4]; [rewrite A; reflexivity|]. destruct (Z.eq_dec k 1) as [->|N1]; [rewrite C; reflexivity|].
      replace (Z.testbit 18 k) with false; [apply andb_false_r|].
      destruct (Z_lt_ge_dec k 5) as [L|G].
      + assert (Y : (k = 0 \/ k = 2 \/ k = 3)%Z) by lia. destruct Y as [Y|[Y|Y]]; rewrite Y; reflexivity.
      + symmetry. apply Z.bits_above_log2; cbn; lia. }
  intros F i. unfold safe, unsafe. split.
  - intros (m & es & E & M). apply B in M. exists 0%Z, m, es. split; [exact E|]. rewrite M. reflexivity.
  - intros (u & m & es & E & U). apply orb_false_iff in U. destruct U as [U M]. apply negb_false_iff in U, M. apply Z.eqb_eq in U, M. subst u.
    exists m, es. split; [exact E|]. apply B. exact M.
Qed.
Lemma directory_some : forall F o i, directory F o = Some i <-> o = Some i /\ is_dir F i.
Proof.
  intros F o i. unfold directory, is_dir. destruct o as [j|]; [|split; [discriminate|intros [X _]; discriminate]].
  split.
  - destruct (F j) as [[u m es|t|]|] eqn:E; try discriminate. intros [= <-]. split; [reflexivity|]. eauto.
  - intros [[= <-] (u & m & es & E)]. rewrite E. reflexivity.
Qed.
Lemma open_entry_plain : forall F d c i, open_entry F true d c = Some i <-> plain F d c i.
Proof.
  intros F d c i. unfold plain, open_entry. destruct c as [|x c]; [split; [discriminate|intros [X _]; congruence]|].
  rewrite directory_some. intuition discriminate.
Qed.
Lemma open_entry_follow : forall F d c i, open_entry F false d c = Some i <-> follow F d c i.
Proof.
  intros F d c i. unfold follow, open_entry. destruct c as [|x c]; [split; [discriminate|intros [X _]; congruence]|].
  rewrite directory_some. intuition discriminate.
Qed.

(** ** One call *)
Lemma openat_spec : forall E nf d c s r s', sys_openat E nf d c s = (r, s') ->
  s_clock s' = S (s_clock s) /\ s_prot s' = s_prot s /\ s_mounts s' = s_mounts s /\
  match r with
  | Some (h, i) => h = s_clock s /\ s_open s' = h :: s_open s /\ open_entry (e_fs E (s_clock s)) nf (snd d) c = Some i
  | None => s_open s' = s_open s
  end.
Proof.
  intros E nf d c s r s'. unfold sys_openat, opened. destruct (e_fail E (s_clock s)); [intros [= <- <-]; cbn; repeat split; auto|].
  destruct (open_entry (e_fs E (s_clock s)) nf (snd d) c); intros [= <- <-]; cbn; repeat split; auto.
Qed.
Lemma protect_spec : forall E d p s ok s', protect_mount E d p s = (ok, s') ->
  s_clock s <= s_clock s' /\ s_open s' = s_open s /\
  (exists new, s_prot s' = new ++ s_prot s /\ length (s_mounts s') = length new + length (s_mounts s)) /\
  (ok = true -> In p (s_prot s')).
Proof.
  intros E d p s ok s'. unfold protect_mount. destruct (existsb (streq p) (s_prot s)) eqn:X.
  - intros [= <- <-]. split; [lia|]. split; [reflexivity|]. split; [exists []; auto|]. intros _.
    apply existsb_exists in X. destruct X as (y & I & Q). apply streq_eq in Q. subst y. exact I.
  - destruct (e_fail E (s_clock s)); intros [= <- <-]; cbn; (split; [lia|]); (split; [reflexivity|]).
    + split; [exists []; auto|discriminate].
    + split; [exists [p]; auto|auto].
Qed.
(** What the list of protected directories and the mounts may become. *)
Definition grown (s s' : st) : Prop :=
  s_clock s <= s_clock s' /\ exists new, s_prot s' = new ++ s_prot s /\ length (s_mounts s') = length new + length (s_mounts s).
Lemma grown_refl : forall s, grown s s.
Proof. intro s. split; [lia|]. exists []. auto. Qed.
Lemma grown_trans : forall a b c, grown a b -> grown b c -> grown a c.
Proof.
  intros a b c (T1 & n1 & P1 & M1) (T2 & n2 & P2 & M2). split; [lia|]. exists (n2 ++ n1). rewrite P2, P1, app_assoc. split; [reflexivity|].
  rewrite app_length. lia.
Qed.
Lemma grown_in : forall a b p, grown a b -> In p (s_prot a) -> In p (s_prot b).
Proof. intros a b p (_ & n & -> & _) I. apply in_or_app. auto. Qed.
Lemma grown_close : forall d s, grown s (sys_close d s).
Proof. intros d s. split; [apply Nat.le_refl|]. exists []. auto. Qed.
Lemma grown_tick : forall s, grown s (tick s).
Proof. intros s. split; [cbn; lia|]. exists []. auto. Qed.
Lemma grown_openat : forall E nf d c s r s', sys_openat E nf d c s = (r, s') -> grown s s'.
Proof. intros E nf d c s r s' H. apply openat_spec in H. destruct H as (T & P & M & _). split; [lia|]. exists []. rewrite P, M. auto. Qed.
Lemma grown_protect : forall E d p s ok s', protect_mount E d p s = (ok, s') -> grown s s'.
Proof. intros E d p s ok s' H. apply protect_spec in H. destruct H as (T & _ & N & _). split; [exact T|exact N]. Qed.
Lemma grown_fstat : forall E d s r s', sys_fstat E d s = (r, s') -> grown s s'.
Proof. intros E d s r s' [= _ <-]. apply grown_tick. Qed.
Ltac grow := eauto using grown_refl, grown_trans, grown_close, grown_tick, grown_openat, grown_protect, grown_fstat.
Lemma grown_clock : forall a b, grown a b -> s_clock a <= s_clock b.
Proof. intros a b [H _]. exact H. Qed.

Lemma open_any_plain : forall F nf d c i, nf = true -> open_entry F nf d c = Some i -> plain F d c i.
Proof. intros F nf d c i -> H. apply open_entry_plain. exact H. Qed.

Lemma last_grown : forall E pr mk nf p c d s r s', last_segment E pr mk nf p c d s = (r, s') -> grown s s'.
Proof.
  intros E pr mk nf p c d s r s'. unfold last_segment. destruct (sys_openat E nf d c s) as [r1 s1] eqn:O1. pose proof (grown_openat _ _ _ _ _ _ _ O1) as G1.
  destruct (match r1 with Some _ => (r1, s1) | None => if mk then if e_mkdir E (s_clock s1) then sys_openat E nf d c (tick s1) else (None, tick s1) else (None, s1) end) as [r2 s2] eqn:O2.
  assert (G2 : grown s1 s2).
  { destruct r1; [injection O2 as _ <-; apply grown_refl|]. destruct mk; [|injection O2 as _ <-; apply grown_refl].
    destruct (e_mkdir E (s_clock s1)); [|injection O2 as _ <-; apply grown_tick].
    apply grown_openat in O2. eapply grown_trans; [apply grown_tick|exact O2]. }
  pose proof (grown_trans _ _ _ G1 G2) as G. clear G1 G2 O1 O2.
  destruct r2 as [rv|]; [|intros [= _ <-]; grow].
  destruct (nf && pr); [|intros [= _ <-]; grow].
  destruct (protect_mount E rv p s2) as [ok s3] eqn:P. apply grown_protect in P. destruct ok; [|intros [= _ <-]; grow].
  destruct (sys_openat E nf d c (sys_close rv s3)) as [r4 s4] eqn:O. apply grown_openat in O. intros [= _ <-].
  eapply grown_trans; [exact G|]. eapply grown_trans; [exact P|]. eapply grown_trans; [apply grown_close|]. eapply grown_trans; [exact O|]. apply grown_close.
Qed.
Lemma last_spec : forall E pr mk nf p c d s h i s', last_segment E pr mk nf p c d s = (Some (h, i), s') ->
  (exists t, s_clock s <= t < s_clock s' /\ open_entry (e_fs E t) nf (snd d) c = Some i) /\ (nf && pr = true -> In p (s_prot s')).
Proof.
  intros E pr mk nf p c d s h i s'. unfold last_segment. destruct (sys_openat E nf d c s) as [r1 s1] eqn:O1. pose proof (grown_openat _ _ _ _ _ _ _ O1) as G1.
  destruct (match r1 with Some _ => (r1, s1) | None => if mk then if e_mkdir E (s_clock s1) then sys_openat E nf d c (tick s1) else (None, tick s1) else (None, s1) end) as [r2 s2] eqn:O2.
  assert (G2 : match r2 with Some (h, i) => exists t, s_clock s <= t < s_clock s2 /\ open_entry (e_fs E t) nf (snd d) c = Some i | None => True end /\ grown s1 s2).
  { destruct r1 as [[h1 i1]|].
    - injection O2 as <- <-. apply openat_spec in O1. destruct O1 as (T & _ & _ & _ & _ & O1). split; [|apply grown_refl]. exists (s_clock s). split; [lia|exact O1].
    - destruct mk; [|injection O2 as <- <-; split; [exact I|apply grown_refl]].
      destruct (e_mkdir E (s_clock s1)); [|injection O2 as <- <-; split; [exact I|apply grown_tick]].
      split; [|eapply grown_trans; [apply grown_tick|eapply grown_openat; exact O2]].
      apply openat_spec in O2. destruct r2 as [[h2 i2]|]; [|exact I]. destruct O2 as (T & _ & _ & _ & _ & O2). apply grown_clock in G1.
      exists (s_clock (tick s1)). split; [cbn in *; lia|exact O2]. }
  destruct G2 as [R2 G2]. destruct r2 as [[h2 i2]|]; [|discriminate].
  destruct (nf && pr).
  - destruct (protect_mount E (h2, i2) p s2) as [ok s3] eqn:P. destruct ok; [|discriminate].
    destruct (sys_openat E nf d c (sys_close (h2, i2) s3)) as [r4 s4] eqn:O. intros [= -> <-].
    pose proof (grown_clock _ _ (grown_protect _ _ _ _ _ _ P)) as T3. pose proof (grown_openat _ _ _ _ _ _ _ O) as G4.
    apply protect_spec in P. destruct P as (_ & _ & _ & P). apply openat_spec in O. destruct O as (T4 & P4 & _ & _ & _ & O).
    apply grown_clock in G1, G2. split.
    + exists (s_clock (sys_close (h2, i2) s3)). split; [cbn in *; lia|exact O].
    + intros _. cbn [sys_close s_prot]. rewrite P4. cbn [sys_close s_prot]. apply P. reflexivity.
  - intros [= <- <- <-]. split; [exact R2|discriminate].
Qed.

Lemma walk_grown : forall E pr mk l nf p d s r s', walk E pr mk nf p l d s = (r, s') -> grown s s'.
Proof.
  intros E pr mk. induction l as [|c l IH]; intros nf p d s r s'; cbn [walk]; [intros [= _ <-]; apply grown_close|].
  destruct l as [|c2 l]; [apply last_grown|].
  destruct (sys_openat E nf d c s) as [r1 s1] eqn:O1. apply grown_openat in O1.
  destruct r1 as [next|]; [|intros [= _ <-]; grow].
  destruct (sys_fstat E next s1) as [t s2] eqn:O2. apply grown_fstat in O2. pose proof (grown_trans _ _ _ O1 O2) as G.
  destruct t as [[u m]|]; [|intros [= _ <-]; eapply grown_trans; [exact G|]; eapply grown_trans; apply grown_close].
  destruct (nf && pr).
  - destruct (protect_mount E next (p ++ c)%list s2) as [ok s3] eqn:P. apply grown_protect in P. pose proof (grown_trans _ _ _ G P) as G3.
    destruct ok; cbn [negb]; [|intros [= _ <-]; eapply grown_trans; [exact G3|]; eapply grown_trans; apply grown_close].
    destruct (sys_openat E nf d c (sys_close next s3)) as [r4 s4] eqn:O. apply grown_openat in O.
    assert (G4 : grown s s4) by (eapply grown_trans; [exact G3|]; eapply grown_trans; [apply grown_close|exact O]).
    destruct r4 as [next'|]; [|intros [= _ <-]; grow].
    intro W. apply IH in W. eapply grown_trans; [exact G4|]. eapply grown_trans; [apply grown_close|exact W].
  - intro W. apply IH in W. eapply grown_trans; [exact G|]. eapply grown_trans; [apply grown_close|exact W].
Qed.

Lemma straight_le : forall fs t t0 d cs e t', t0 <= t -> straight fs t d cs e t' -> straight fs t0 d cs e t'.
Proof. intros fs t t0 d cs e t' L H. destruct H; [apply straight_nil; lia|]. eapply straight_cons; [|eassumption|eassumption]. lia. Qed.
Lemma led_le : forall fs t t0 d cs e t', t0 <= t -> led fs t d cs e t' -> led fs t0 d cs e t'.
Proof. intros fs t t0 d cs e t' L H. destruct H; [apply led_nil; lia|]. eapply led_cons; [|eassumption|eassumption|eassumption|eassumption]. lia. Qed.
Lemma slashed_step : forall p c x y, (p ++ slashed (c :: x :: y) = (p ++ c ++ lit "/") ++ slashed (x :: y))%list.
Proof. intros p c x y. change (slashed (c :: x :: y)) with (c ++ "/"%char :: slashed (x :: y))%list. change (lit "/") with ["/"%char]. rewrite <- !app_assoc. reflexivity. Qed.
(** Every part of the path from the second component of [l] on is protected. *)
Definition covered (p : cstr) (l : list cstr) (s : st) : Prop := forall q r, l = q ++ r -> q <> [] -> In (p ++ slashed q)%list (s_prot s).
Lemma covered_cons : forall p c l s, In (p ++ c)%list (s_prot s) -> covered (p ++ c ++ lit "/")%list l s -> covered p (c :: l) s.
Proof.
  intros p c l s I C [|c' q] r Q N; [congruence|]. injection Q as <- Q. destruct q as [|c2 q]; [exact I|].
  specialize (C (c2 :: q) r Q). rewrite slashed_step. apply C. discriminate.
Qed.

Lemma walk_straight : forall E pr mk l p d s h i s', walk E pr mk true p l d s = (Some (h, i), s') ->
  straight (e_fs E) (s_clock s) (snd d) l i (s_clock s') /\ (pr = true -> covered p l s').
Proof.
  intros E pr mk. induction l as [|c l IH]; intros p d s h i s'; cbn [walk]; [discriminate|].
  destruct l as [|c2 l].
  - intro H. apply last_spec in H. destruct H as [(t & T & O) C]. split.
    + eapply straight_cons with (t1 := t); [lia|apply open_entry_plain; exact O|]. apply straight_nil. lia.
    + intros ->. apply covered_cons; [apply C; reflexivity|]. intros q r Q N. destruct q; [congruence|discriminate].
  - destruct (sys_openat E true d c s) as [[[h1 i1]|] s1] eqn:O1; [|discriminate]. pose proof (grown_openat _ _ _ _ _ _ _ O1) as G1.
    destruct (sys_fstat E (h1, i1) s1) as [t s2] eqn:O2. apply grown_fstat in O2. destruct t as [[u m]|]; [|discriminate].
    cbn [andb orb]. apply grown_clock in G1, O2. destruct pr.
    + destruct (protect_mount E (h1, i1) (p ++ c)%list s2) as [ok s3] eqn:P. destruct ok; cbn [negb]; [|discriminate].
      destruct (sys_openat E true d c (sys_close (h1, i1) s3)) as [[[h4 i4]|] s4] eqn:O; [|discriminate].
      intro W. pose proof (walk_grown _ _ _ _ _ _ _ _ _ _ W) as GW. apply IH in W. destruct W as [W1 W2]. specialize (W2 eq_refl).
      pose proof (grown_clock _ _ (grown_protect _ _ _ _ _ _ P)) as T3. apply protect_spec in P. destruct P as (_ & _ & _ & P). specialize (P eq_refl).
      apply openat_spec in O. destruct O as (T4 & P4 & _ & _ & _ & O). split.
      * apply (straight_cons _ _ _ _ i4 _ _ (s_clock (sys_close (h1, i1) s3))); [cbn in *; lia|apply open_entry_plain; exact O|].
        eapply straight_le; [|exact W1]. cbn in *; lia.
      * intros _. apply covered_cons; [|exact W2]. eapply grown_in; [exact GW|]. cbn [sys_close s_prot]. rewrite P4. exact P.
    + intro W. apply IH in W. destruct W as [W1 _]. split; [|discriminate]. apply openat_spec in O1. destruct O1 as (T1 & _ & _ & _ & _ & O1).
      apply (straight_cons _ _ _ _ i1 _ _ (s_clock s)); [lia|apply open_entry_plain; exact O1|]. eapply straight_le; [|exact W1]. cbn in *; lia.
Qed.

Lemma walk_led : forall E pr mk l p d s h i s', walk E pr mk false p l d s = (Some (h, i), s') ->
  exists pre c post e u t1 t2, l = pre ++ c :: post /\ led (e_fs E) (s_clock s) (snd d) pre e t1 /\ t1 <= t2 /\ follow (e_fs E t2) e c u /\
    straight (e_fs E) t2 u post i (s_clock s') /\ (post <> [] -> exists t, t2 < t /\ ~ safe (e_fs E t) u) /\
    (pr = true -> forall q r, post = q ++ r -> q <> [] -> In (p ++ slashed (pre ++ c :: q))%list (s_prot s')).
Proof.
  intros E pr mk. induction l as [|c l IH]; intros p d s h i s'; cbn [walk]; [discriminate|].
  destruct l as [|c2 l].
  - intro H. apply last_spec in H. destruct H as [(t & T & O) _]. exists [], c, [], (snd d), i, (s_clock s), t.
    split; [reflexivity|]. split; [apply led_nil; lia|]. split; [lia|]. split; [apply open_entry_follow; exact O|]. split; [apply straight_nil; lia|].
    split; [congruence|]. intros _ q r Q N. destruct q; [congruence|discriminate].
  - destruct (sys_openat E false d c s) as [[[h1 i1]|] s1] eqn:O1; [|discriminate].
    apply openat_spec in O1. destruct O1 as (T1 & P1 & _ & _ & _ & O1). apply open_entry_follow in O1. cbn [andb orb].
    unfold sys_fstat. destruct (e_fail E (s_clock s1)); [discriminate|]. cbn [snd].
    destruct (e_fs E (s_clock s1) i1) as [[u m es| |]|] eqn:F; try discriminate. destruct (unsafe u m) eqn:U.
    + intro W. pose proof (walk_straight _ _ _ _ _ _ _ _ _ _ W) as [W1 W2]. exists [], c, (c2 :: l), (snd d), i1, (s_clock s), (s_clock s).
      split; [reflexivity|]. split; [apply led_nil; lia|]. split; [lia|]. split; [exact O1|]. split; [eapply straight_le; [|exact W1]; cbn; lia|]. split.
      * intros _. exists (s_clock s1). split; [lia|]. intro X. apply safe_iff in X. destruct X as (u' & m' & es' & F' & U'). rewrite F in F'. injection F' as <- <- <-. congruence.
      * intros Q q r Eq N. specialize (W2 Q q r Eq N). destruct q as [|c3 q]; [congruence|].
        cbn [app]. rewrite slashed_step. exact W2.
    + intro W. apply IH in W. destruct W as (pre & c' & post & e & u' & t1 & t2 & Q & L & T & Fo & S1 & N & C). rewrite Q.
      exists (c :: pre), c', post, e, u', t1, t2. split; [reflexivity|]. split.
      { apply (led_cons _ _ _ _ i1 _ _ (s_clock s) (s_clock s1)); [lia|exact O1|lia| |].
        - apply safe_iff. exists u, m, es. auto.
        - eapply led_le; [|exact L]. cbn. lia. }
      split; [exact T|]. split; [exact Fo|]. split; [exact S1|]. split; [exact N|]. intros Pr q r Eq Nq. specialize (C Pr q r Eq Nq).
      cbn [app]. assert (Z0 : exists x y, pre ++ c' :: q = x :: y) by (destruct pre; cbn; eauto). destruct Z0 as (x & y & Z0). rewrite Z0 in *.
      rewrite slashed_step. exact C.
Qed.

(** ** Paths *)
(** [path] is absolute and has the components [cs]; slashes at its end do not count, other empty components do. *)
Definition names (path : cstr) (cs : list cstr) : Prop :=
  (forall c, In c cs -> ~ In "/"%char c) /\ (cs = [] \/ last cs [] <> []) /\ exists k, path = "/"%char :: (slashed cs ++ repeat "/"%char k)%list.
(** The components that the code goes through. *)
Definition parts (path : cstr) : list cstr := match strip_slashes path with _ :: ((_ :: _) as dir) => fields "/"%char dir | _ => [] end.

Lemma fields_no_sep : forall c, ~ In "/"%char c -> fields "/"%char c = [c].
Proof.
  induction c as [|x c IH]; intro N; [reflexivity|]. cbn [fields]. destruct (Ascii.eqb_spec x "/"%char) as [->|D]; [exfalso; apply N; left; reflexivity|].
  rewrite IH; [reflexivity|]. intro I. apply N. right. exact I.
Qed.
Lemma fields_first : forall c s, ~ In "/"%char c -> fields "/"%char (c ++ "/"%char :: s)%list = c :: fields "/"%char s.
Proof.
  induction c as [|x c IH]; intros s N; [reflexivity|]. cbn [fields app]. destruct (Ascii.eqb_spec x "/"%char) as [->|D]; [exfalso; apply N; left; reflexivity|].
  rewrite IH; [reflexivity|]. intro I. apply N. right. exact I.
Qed.
Lemma fields_slashed : forall cs, cs <> [] -> (forall c, In c cs -> ~ In "/"%char c) -> fields "/"%char (slashed cs) = cs.
Proof.
  induction cs as [|c cs IH]; intros N A; [congruence|]. destruct cs as [|c2 cs]; [apply fields_no_sep; apply A; left; reflexivity|].
  change (slashed (c :: c2 :: cs)) with (c ++ "/"%char :: slashed (c2 :: cs))%list. rewrite fields_first; [|apply A; left; reflexivity].
  rewrite IH; [reflexivity|discriminate|]. intros c' I. apply A. right. exact I.
Qed.
Lemma slashed_cons : forall c l, l <> [] -> slashed (c :: l) = (c ++ "/"%char :: slashed l)%list.
Proof. intros c [|x l] N; [congruence|reflexivity]. Qed.
Lemma slashed_fields : forall s, slashed (fields "/"%char s) = s.
Proof.
  induction s as [|x s IH]; [reflexivity|]. cbn [fields]. destruct (Ascii.eqb_spec x "/"%char) as [->|D].
  - rewrite slashed_cons; [|apply fields_ne]. rewrite IH. reflexivity.
  - destruct (fields "/"%char s) as [|w ws] eqn:F; [apply fields_ne in F; destruct F|]. destruct ws as [|w2 ws].
    + cbn [slashed] in *. rewrite IH. reflexivity.
    + rewrite slashed_cons by discriminate. rewrite slashed_cons in IH by discriminate. rewrite <- IH. reflexivity.
Qed.
Lemma fields_last : forall s, s <> [] -> (last (fields "/"%char s) [] = [] <-> exists a, s = a ++ ["/"%char])%list.
Proof.
  induction s as [|x s IH]; intro N; [congruence|]. cbn [fields]. destruct s as [|y s].
  - cbn [fields]. destruct (Ascii.eqb_spec x "/"%char) as [->|D]; cbn [last].
    + split; [exists []; reflexivity|reflexivity].
    + split; [discriminate|]. intros [[|z a] Q]; [injection Q as ->; congruence|]. injection Q as -> Q. destruct a; discriminate.
  - specialize (IH ltac:(discriminate)).
    assert (X : (exists a, x :: y :: s = a ++ ["/"%char])%list <-> (exists a, y :: s = a ++ ["/"%char])%list).
    { split; [intros [[|z a] Q]; [discriminate|injection Q as -> Q; exists a; exact Q]|]. intros [a ->]. exists (x :: a). reflexivity. }
    rewrite X, <- IH. destruct (fields "/"%char (y :: s)) as [|w ws] eqn:F; [apply fields_ne in F; destruct F|].
    destruct (Ascii.eqb x "/"%char); [reflexivity|]. destruct ws as [|w2 ws]; [|reflexivity]. cbn [last]. split; [discriminate|]. intros ->.
    cbn [fields] in F. exfalso. revert F. destruct (Ascii.eqb y "/"%char); [intros [= F]; apply fields_ne in F; destruct F|].
    destruct (fields "/"%char s); discriminate.
Qed.
Lemma strip_spec : forall r, exists r' k, r = (r' ++ repeat "/"%char k)%list /\ (~ exists a, r' = a ++ ["/"%char])%list /\ strip_slashes ("/"%char :: r) = "/"%char :: r'.
Proof.
  intro r. induction r as [|x r IH] using rev_ind.
  - exists [], 0. split; [reflexivity|]. split; [intros [a Q]; destruct a; discriminate|reflexivity].
  - unfold strip_slashes in *. rewrite rev_app_distr. cbn [rev app span]. destruct (Ascii.eqb_spec x "/"%char) as [->|D].
    + destruct IH as (r' & k & -> & N & S1). exists r', (S k). split; [|split; [exact N|]].
      * rewrite <- app_assoc. f_equal. change (repeat "/"%char (S k)) with ("/"%char :: repeat "/"%char k). symmetry. apply repeat_cons.
      * destruct (span (fun x => Ascii.eqb x "/"%char) (rev (r' ++ repeat "/"%char k))) as [u v]. exact S1.
    + exists (r ++ [x])%list, 0. split; [rewrite app_nil_r; reflexivity|]. split.
      * intros [a Q]. apply app_inj_tail in Q. destruct Q as [_ Q]. congruence.
      * cbn [snd]. change (x :: rev r) with ([x] ++ rev r)%list. rewrite rev_app_distr, rev_involutive. reflexivity.
Qed.
Lemma no_tail_unique : forall (a b : list ascii) k j, (~ exists x, a = x ++ ["/"%char])%list -> (~ exists x, b = x ++ ["/"%char])%list ->
  (a ++ repeat "/"%char k = b ++ repeat "/"%char j)%list -> a = b.
Proof.
  intros a b. induction k as [|k IH]; intros j A B Q.
  - destruct j; [rewrite !app_nil_r in Q; exact Q|]. cbn [repeat] in Q. rewrite repeat_cons, app_nil_r, app_assoc in Q. exfalso. apply A. eauto.
  - destruct j.
    + cbn [repeat] in Q. rewrite repeat_cons, app_nil_r, app_assoc in Q. exfalso. apply B. exists (a ++ repeat "/"%char k)%list. symmetry. exact Q.
    + cbn [repeat] in Q. rewrite !repeat_cons, !app_assoc in Q. apply app_inj_tail in Q. destruct Q as [Q _]. eapply IH; eauto.
Qed.
Lemma parts_names : forall r, names ("/"%char :: r) (parts ("/"%char :: r)).
Proof.
  intro r. unfold parts. destruct (strip_spec r) as (r' & k & Q & N & ->). destruct r' as [|x r'].
  - split; [intros c []|]. split; [left; reflexivity|]. exists k. rewrite Q. reflexivity.
  - split; [intros c I; apply fields_iff in I; apply I|]. split.
    + right. intro L. apply fields_last in L; [|discriminate]. apply N. exact L.
    + exists k. rewrite slashed_fields, Q. reflexivity.
Qed.
Lemma names_parts : forall path cs, names path cs <-> (exists r, path = "/"%char :: r) /\ parts path = cs.
Proof.
  intros path cs. split; [|intros [[r ->] <-]; apply parts_names].
  intros (A & L & k & ->). split; [eauto|]. unfold parts. destruct (strip_spec (slashed cs ++ repeat "/"%char k)%list) as (r' & j & Q & N & ->).
  assert (X : (~ exists a, slashed cs = a ++ ["/"%char])%list).
  { intro X. destruct L as [->|L]; [destruct X as [a X]; destruct a; discriminate|]. apply L. destruct cs as [|c cs]; [reflexivity|].
    rewrite <- (fields_slashed (c :: cs)) by (discriminate || exact A). apply fields_last; [|exact X].
    destruct X as [a ->]. destruct a; discriminate. }
  assert (Z0 : slashed cs = r') by (eapply no_tail_unique; eassumption). subst r'.
  destruct cs as [|c cs]; [reflexivity|]. destruct (slashed (c :: cs)) as [|x y] eqn:Sl.
  - exfalso. destruct L as [L|L]; [discriminate|]. apply L. rewrite <- (fields_slashed (c :: cs)) by (discriminate || exact A). rewrite Sl. reflexivity.
  - rewrite <- Sl. apply fields_slashed; [discriminate|exact A].
Qed.

(** ** How the directory is reached *)
Lemma secure_opendir_form : forall E pr mk id path s d s', secure_opendir E pr mk id path s = (Some d, s') ->
  names path (parts path) /\ s_clock s + 1 < s_clock s' /\ (pr = true -> id = true) /\
  ((parts path = [] /\ snd d = 0 /\ is_dir (e_fs E (s_clock s + 1)) 0) \/
   exists s1 h, s_clock s1 = s_clock s + 2 /\ s_prot s1 = s_prot s /\ walk E pr mk false (lit "/") (parts path) (h, 0) s1 = (Some d, s')).
Proof.
  intros E pr mk id path s d s'. unfold secure_opendir. destruct (pr && negb id) eqn:B; [discriminate|]. destruct path as [|c path]; [discriminate|].
  destruct (Ascii.eqb_spec c "/"%char) as [->|D]; cbn [negb]; [|discriminate]. destruct (e_fail E (s_clock s)); [discriminate|].
  unfold opened. destruct (e_fail E (s_clock (tick s))); [discriminate|].
  destruct (directory (e_fs E (s_clock (tick s))) (Some 0)) as [i|] eqn:R; [|discriminate].
  apply directory_some in R. destruct R as [[= <-] R]. intro H.
  assert (P1 : pr = true -> id = true) by (intros ->; destruct id; [reflexivity|discriminate]).
  unfold parts. destruct (strip_slashes ("/"%char :: path)) as [|c0 [|c1 dir]] eqn:S0.
  - injection H as <- <-. split; [pose proof (parts_names path) as X; unfold parts in X; rewrite S0 in X; exact X|]. split; [cbn; lia|]. split; [exact P1|].
    left. cbn [snd]. replace (s_clock s + 1) with (s_clock (tick s)) by (cbn; lia). auto.
  - injection H as <- <-. split; [pose proof (parts_names path) as X; unfold parts in X; rewrite S0 in X; exact X|]. split; [cbn; lia|]. split; [exact P1|].
    left. cbn [snd]. replace (s_clock s + 1) with (s_clock (tick s)) by (cbn; lia). auto.
  - split; [pose proof (parts_names path) as X; unfold parts in X; rewrite S0 in X; exact X|].
    pose proof (grown_clock _ _ (walk_grown _ _ _ _ _ _ _ _ _ _ H)) as T. split; [cbn in T; lia|]. split; [exact P1|].
    right. eexists; eexists; split; [|split]; [| |exact H]; cbn; [lia|reflexivity].
Qed.
(** Whatever others do to the file system meanwhile: the directory is reached through safe directories up to the first that is not safe,
    and from there without links. Under SECURE_OPENDIR_PROTECT every later part of the path is protected. *)
Theorem nsopen_walk : forall E pr mk id path s h i s', secure_opendir E pr mk id path s = (Some (h, i), s') ->
  exists cs, names path cs /\
  (cs = [] /\ i = 0 \/
   exists pre c post e u t1 t2, cs = pre ++ c :: post /\ led (e_fs E) (s_clock s) 0 pre e t1 /\ t1 <= t2 /\ follow (e_fs E t2) e c u /\
     straight (e_fs E) t2 u post i (s_clock s') /\ (post <> [] -> exists t, t2 < t /\ ~ safe (e_fs E t) u) /\
     (pr = true -> forall q r, post = q ++ r -> q <> [] -> In ("/"%char :: slashed (pre ++ c :: q)) (s_prot s'))).
Proof.
  intros E pr mk id path s h i s' H. apply secure_opendir_form in H. destruct H as (N & T & _ & [(P & I & _)|(s1 & h1 & T1 & P1 & W)]).
  - exists (parts path). split; [exact N|]. left. auto.
  - exists (parts path). split; [exact N|]. right. apply walk_led in W.
    destruct W as (pre & c & post & e & u & t1 & t2 & Q & L & T2 & F & St & Nn & C). exists pre, c, post, e, u, t1, t2.
    split; [exact Q|]. split; [eapply led_le; [|exact L]; lia|]. auto.
Qed.

(** ** In a file system at rest *)
Lemma resolve_plain : forall F d c i, ~ In "/"%char c -> plain F d c i -> resolve 40 F d c = Some i.
Proof.
  intros F d c i N (X & L & u & m & es & D). destruct c as [|x c]; [congruence|].
  change 40 with (S 39). generalize 39. intro n. cbn [resolve]. rewrite fields_no_sep by exact N. cbn [fold_left].
  destruct (Ascii.eqb_spec x "/"%char) as [->|_]; [exfalso; apply N; left; reflexivity|]. rewrite L, D. reflexivity.
Qed.
Definition quiet (E : env) (F : fsys) : Prop := (forall t, e_fs E t = F) /\ (forall t, e_fail E t = false).
Lemma openat_quiet : forall E F nf d c s, quiet E F ->
  sys_openat E nf d c s = match open_entry F nf (snd d) c with
    | Some i => (Some (s_clock s, i), mkSt (S (s_clock s)) (s_clock s :: s_open s) (s_prot s) (s_mounts s)) | None => (None, tick s) end.
Proof. intros E F nf d c s [Q1 Q2]. unfold sys_openat, opened. rewrite Q1, Q2. reflexivity. Qed.
Lemma fstat_quiet : forall E F d s u m es, quiet E F -> F (snd d) = Some (NDir u m es) -> sys_fstat E d s = (Some (u, m), tick s).
Proof. intros E F d s u m es [Q1 Q2] H. unfold sys_fstat. rewrite Q1, Q2, H. reflexivity. Qed.
Lemma walk_straight_back : forall E F mk nf l p d s i, quiet E F -> l <> [] -> (forall c, In c l -> ~ In "/"%char c) ->
  (exists t t', straight (fun _ => F) t (snd d) l i t') -> exists h s', walk E false mk nf p l d s = (Some (h, i), s').
Proof.
  intros E F mk nf l p d s i Q N A (t & t' & H). revert nf p d s t t' H N A. induction l as [|c l IH]; intros nf p d s t t' H N A; [congruence|].
  inversion H as [|? ? ? j ? ? t1 ? T P St]; subst. assert (O : open_entry F nf (snd d) c = Some j).
  { destruct nf; [apply open_entry_plain; exact P|]. apply open_entry_follow. split; [apply P|]. split; [apply resolve_plain; [apply A; left; reflexivity|exact P]|apply P]. }
  cbn [walk]. destruct l as [|c2 l].
  - inversion St; subst. unfold last_segment. rewrite (openat_quiet E F) by exact Q. rewrite O. rewrite andb_false_r. eauto.
  - rewrite (openat_quiet E F) by exact Q. rewrite O. destruct P as (_ & _ & u & m & es & D). rewrite (fstat_quiet E F (s_clock s, j) _ u m es Q D). rewrite andb_false_r.
    eapply IH; [exact St|discriminate|]. intros c' I. apply A. right. exact I.
Qed.
Lemma walk_led_back : forall E F mk pre p d s c post e u i t t1 t2 t3, quiet E F -> (forall x, In x (pre ++ c :: post) -> ~ In "/"%char x) ->
  led (fun _ => F) t (snd d) pre e t1 -> follow F e c u -> straight (fun _ => F) t2 u post i t3 ->
  exists h s', walk E false mk false p (pre ++ c :: post) d s = (Some (h, i), s').
Proof.
  intros E F mk pre p d s c post e u i t t1 t2 t3 Q A L Fo St. revert p d s t L A. induction pre as [|c0 pre IH]; intros p d s t L A.
  - inversion L; subst. cbn [app walk]. assert (O : open_entry F false (snd d) c = Some u) by (apply open_entry_follow; exact Fo). destruct post as [|c2 post].
    + inversion St; subst. unfold last_segment. rewrite (openat_quiet E F) by exact Q. rewrite O. cbn [andb]. eauto.
    + rewrite (openat_quiet E F) by exact Q. rewrite O. destruct Fo as (_ & _ & x & m & es & D). rewrite (fstat_quiet E F (s_clock s, u) _ x m es Q D). cbn [andb orb].
      apply (walk_straight_back E F); [exact Q|discriminate|intros y I; apply A; right; exact I|exists t2, t3; exact St].
  - inversion L as [|? ? ? j ? ? t4 t5 ? T4 F4 T5 S5 L5]; subst. cbn [app walk]. assert (O : open_entry F false (snd d) c0 = Some j) by (apply open_entry_follow; exact F4).
    destruct (pre ++ c :: post) as [|x y] eqn:X; [destruct pre; discriminate|]. rewrite <- X in *.
    rewrite (openat_quiet E F) by exact Q. rewrite O. apply safe_iff in S5. destruct S5 as (v & m & es & D & U). rewrite (fstat_quiet E F (s_clock s, j) _ v m es Q D). cbn [andb orb].
    rewrite U. eapply IH; [exact L5|]. intros z I. apply A. right. exact I.
Qed.
(** When nothing changes and no call fails, exactly the directories reached in this way are opened. *)
Theorem nsopen_static : forall E F mk id path s i, quiet E F -> (mk = true -> forall t, e_mkdir E t = false) -> is_dir F 0 ->
  ((exists h s', secure_opendir E false mk id path s = (Some (h, i), s')) <->
   exists cs, names path cs /\
     (cs = [] /\ i = 0 \/
      exists pre c post e u t t1 t2 t3, cs = pre ++ c :: post /\ led (fun _ => F) t 0 pre e t1 /\ follow F e c u /\ straight (fun _ => F) t2 u post i t3)).
Proof.
  intros E F mk id path s i Q Mk R. split.
  - intros (h & s' & H). apply nsopen_walk in H. destruct H as (cs & N & H). exists cs. split; [exact N|]. destruct H as [H|H]; [left; exact H|right].
    destruct H as (pre & c & post & e & u & t1 & t2 & X & L & T & Fo & St & _). exists pre, c, post, e, u, (s_clock s), t1, t2, (s_clock s').
    split; [exact X|]. destruct Q as [Q1 Q2]. rewrite Q1 in Fo. split; [|split; [exact Fo|]].
    + clear -L Q1. induction L; [apply led_nil; exact H|]. rewrite Q1 in *. eapply led_cons; [eassumption|eassumption|eassumption|eassumption|exact IHL].
    + clear -St Q1. induction St; [apply straight_nil; exact H|]. rewrite Q1 in *. eapply straight_cons; [eassumption|eassumption|exact IHSt].
  - intros (cs & N & H). pose proof N as N0. apply names_parts in N. destruct N as [[r ->] P]. unfold parts in P.
    unfold secure_opendir. rewrite (Ascii.eqb_refl "/"%char). cbn [andb negb]. destruct Q as [Q1 Q2]. rewrite Q2. unfold opened. rewrite Q2, Q1.
    assert (D : directory F (Some 0) = Some 0) by (apply directory_some; auto). rewrite D.
    destruct H as [[-> ->]|(pre & c & post & e & u & t & t1 & t2 & t3 & X & L & Fo & St)].
    + destruct (strip_slashes ("/"%char :: r)) as [|x [|y dir]]; [eauto|eauto|]. apply fields_ne in P. destruct P.
    + destruct (strip_slashes ("/"%char :: r)) as [|x [|y dir]]; [subst cs; destruct pre; discriminate|subst cs; destruct pre; discriminate|].
      rewrite P, X. eapply walk_led_back with (F := F); [split; assumption| |exact L|exact Fo|exact St]. intros z I. apply (proj1 N0). rewrite X. exact I.
Qed.

(** ** Descriptors and mounts *)
Lemma remove_fresh : forall (x : nat) l, ~ In x l -> remove Nat.eq_dec x l = l.
Proof. intros x l N. apply notin_remove. exact N. Qed.
Lemma remove_head : forall (x : nat) l, ~ In x l -> remove Nat.eq_dec x (x :: l) = l.
Proof. intros x l N. rewrite remove_cons. apply remove_fresh. exact N. Qed.
Definition below (B : list nat) (n : nat) : Prop := forall h, In h B -> h < n.
Definition result_fds (r : option fd) : list nat := match r with Some (h, _) => [h] | None => [] end.
Lemma close_top : forall d s B, s_open s = fst d :: B -> ~ In (fst d) B -> s_open (sys_close d s) = B.
Proof. intros d s B H N. cbn [sys_close s_open]. rewrite H. apply remove_head. exact N. Qed.
Lemma close_second : forall d x s B, s_open s = x :: fst d :: B -> x <> fst d -> ~ In (fst d) B -> s_open (sys_close d s) = x :: B.
Proof.
  intros d x s B H D N. cbn [sys_close s_open]. rewrite H. cbn [remove]. destruct (Nat.eq_dec (fst d) x) as [Q|_]; [congruence|].
  change (remove Nat.eq_dec (fst d) (fst d :: B)) with (remove Nat.eq_dec (fst d) (fst d :: B)). f_equal. apply remove_head. exact N.
Qed.
Lemma below_fresh : forall B n m, below B n -> n <= m -> ~ In m B.
Proof. intros B n m H L I. apply H in I. lia. Qed.
Lemma last_fds : forall E pr mk nf p c d s r s' B, s_open s = fst d :: B -> below (fst d :: B) (s_clock s) -> ~ In (fst d) B ->
  last_segment E pr mk nf p c d s = (r, s') -> s_open s' = result_fds r ++ B.
Proof.
  intros E pr mk nf p c d s r s' B O Bl N. unfold last_segment. destruct (sys_openat E nf d c s) as [r1 s1] eqn:O1.
  destruct (match r1 with Some _ => (r1, s1) | None => if mk then if e_mkdir E (s_clock s1) then sys_openat E nf d c (tick s1) else (None, tick s1) else (None, s1) end) as [r2 s2] eqn:O2.
  assert (X : match r2 with Some (h, _) => s_open s2 = h :: fst d :: B /\ s_clock s <= h < s_clock s2 | None => s_open s2 = fst d :: B end).
  { apply openat_spec in O1. destruct O1 as (T1 & _ & _ & O1). destruct r1 as [[h1 i1]|].
    - injection O2 as <- <-. destruct O1 as (-> & Op & _). rewrite Op, O. split; [reflexivity|lia].
    - rewrite O in O1. destruct mk; [|injection O2 as <- <-; exact O1]. destruct (e_mkdir E (s_clock s1)); [|injection O2 as <- <-; exact O1].
      apply openat_spec in O2. destruct O2 as (T2 & _ & _ & O2). destruct r2 as [[h2 i2]|]; cbn [tick s_open s_clock] in *.
      + destruct O2 as (-> & Op & _). rewrite Op, O1. split; [reflexivity|lia].
      + rewrite O2. exact O1. }
  clear O1 O2. destruct r2 as [[h2 i2]|].
  2:{ intros [= <- <-]. apply close_top; assumption. }
  destruct X as [X T]. assert (D : h2 <> fst d) by (specialize (Bl (fst d) (or_introl eq_refl)); lia).
  assert (Nh : ~ In h2 (fst d :: B)) by (intro I; apply Bl in I; lia).
  destruct (nf && pr).
  - destruct (protect_mount E (h2, i2) p s2) as [ok s3] eqn:P. apply protect_spec in P. destruct P as (T3 & Op3 & _ & _). rewrite X in Op3.
    assert (C3 : s_open (sys_close (h2, i2) s3) = fst d :: B) by (apply (close_top (h2, i2)); [exact Op3|exact Nh]).
    destruct ok.
    + destruct (sys_openat E nf d c (sys_close (h2, i2) s3)) as [r4 s4] eqn:O4. apply openat_spec in O4. destruct O4 as (T4 & _ & _ & O4). intros [= <- <-].
      destruct r4 as [[h4 i4]|].
      * destruct O4 as (-> & Op4 & _). rewrite C3 in Op4. cbn [result_fds app]. apply close_second; [exact Op4| |exact N]. cbn [sys_close s_clock] in *.
        specialize (Bl (fst d) (or_introl eq_refl)). lia.
      * rewrite C3 in O4. apply close_top; assumption.
    + intros [= <- <-]. apply close_top; [exact C3|exact N].
  - intros [= <- <-]. cbn [result_fds app]. apply close_second; assumption.
Qed.
Lemma walk_fds : forall E pr mk l nf p d s r s' B, s_open s = fst d :: B -> below (fst d :: B) (s_clock s) -> ~ In (fst d) B ->
  walk E pr mk nf p l d s = (r, s') -> s_open s' = result_fds r ++ B.
Proof.
  intros E pr mk. induction l as [|c l IH]; intros nf p d s r s' B O Bl N; cbn [walk]; [intros [= <- <-]; apply close_top; assumption|].
  destruct l as [|c2 l]; [apply last_fds; assumption|].
  destruct (sys_openat E nf d c s) as [r1 s1] eqn:O1. apply openat_spec in O1. destruct O1 as (T1 & _ & _ & O1).
  destruct r1 as [[h1 i1]|]; [|rewrite O in O1; intros [= <- <-]; apply close_top; assumption].
  destruct O1 as (-> & Op1 & _). rewrite O in Op1. unfold sys_fstat.
  assert (D : s_clock s <> fst d) by (specialize (Bl (fst d) (or_introl eq_refl)); lia).
  assert (Nh : ~ In (s_clock s) (fst d :: B)) by (intro I; apply Bl in I; lia).
  set (t := if e_fail E (s_clock s1) then None else match e_fs E (s_clock s1) (snd (s_clock s, i1)) with Some (NDir u m _) => Some (u, m) | _ => None end).
  destruct t as [[u m]|].
  2:{ intros [= <- <-]. apply close_top; [|exact N]. apply (close_top (s_clock s, i1)); [exact Op1|exact Nh]. }
  destruct (nf && pr).
  - destruct (protect_mount E (s_clock s, i1) (p ++ c)%list (tick s1)) as [ok s3] eqn:P. apply protect_spec in P. destruct P as (T3 & Op3 & _ & _).
    cbn [tick s_open s_clock] in T3, Op3. rewrite Op1 in Op3.
    assert (C3 : s_open (sys_close (s_clock s, i1) s3) = fst d :: B) by (apply (close_top (s_clock s, i1)); [exact Op3|exact Nh]).
    destruct ok; cbn [negb]; [|intros [= <- <-]; apply close_top; [exact C3|exact N]].
    destruct (sys_openat E nf d c (sys_close (s_clock s, i1) s3)) as [r4 s4] eqn:O4. apply openat_spec in O4. destruct O4 as (T4 & _ & _ & O4).
    destruct r4 as [[h4 i4]|].
    + destruct O4 as (-> & Op4 & _). rewrite C3 in Op4. cbn [sys_close s_clock] in *. intro W. eapply IH; [| | |exact W].
      * apply close_second; [exact Op4| |exact N]. specialize (Bl (fst d) (or_introl eq_refl)). cbn [fst sys_close s_clock]. lia.
      * cbn [fst sys_close s_clock]. intros h [<-|I]; [lia|]. specialize (Bl h (or_intror I)). lia.
      * cbn [fst]. intro I. specialize (Bl _ (or_intror I)). lia.
    + rewrite C3 in O4. intros [= <- <-]. apply close_top; assumption.
  - intro W. eapply IH; [| | |exact W].
    + apply close_second; [exact Op1|exact D|exact N].
    + cbn [fst sys_close tick s_clock]. intros h [<-|I]; [lia|]. specialize (Bl h (or_intror I)). lia.
    + cbn [fst]. intro I. apply Nh. right. exact I.
Qed.
(** Whatever happens, no descriptor but the one returned stays open, and none of the caller's is closed. *)
Theorem nsopen_descriptors : forall E pr mk id path s r s', below (s_open s) (s_clock s) -> secure_opendir E pr mk id path s = (r, s') ->
  match r with
  | Some (h, _) => s_open s' = h :: s_open s
  | None => s_open s' = s_open s
  end.
Proof.
  intros E pr mk id path s r s' Bl H.
  assert (G : s_open s' = result_fds r ++ s_open s).
  2:{ destruct r as [[h i]|]; exact G. }
  revert H. unfold secure_opendir. destruct (pr && negb id); [intros [= <- <-]; reflexivity|]. destruct path as [|c path]; [intros [= <- <-]; reflexivity|].
  destruct (Ascii.eqb c "/"%char); cbn [negb]; [|intros [= <- <-]; reflexivity]. destruct (e_fail E (s_clock s)); [intros [= <- <-]; reflexivity|].
  unfold opened. destruct (e_fail E (s_clock (tick s))); [intros [= <- <-]; reflexivity|].
  destruct (directory (e_fs E (s_clock (tick s))) (Some 0)) as [i|]; [|intros [= <- <-]; reflexivity].
  destruct (strip_slashes (c :: path)) as [|c0 [|c1 dir]]; [intros [= <- <-]; reflexivity|intros [= <- <-]; reflexivity|].
  apply walk_fds; cbn [s_open s_clock fst tick].
  - reflexivity.
  - intros h [<-|I]; [lia|]. apply Bl in I. lia.
  - intro I. apply Bl in I. lia.
Qed.
Lemma last_unprotected : forall E mk nf p c d s r s', last_segment E false mk nf p c d s = (r, s') -> s_prot s' = s_prot s /\ s_mounts s' = s_mounts s.
Proof.
  intros E mk nf p c d s r s'. unfold last_segment. rewrite andb_false_r. destruct (sys_openat E nf d c s) as [r1 s1] eqn:O1. apply openat_spec in O1. destruct O1 as (_ & P1 & M1 & _).
  destruct (match r1 with Some _ => (r1, s1) | None => if mk then if e_mkdir E (s_clock s1) then sys_openat E nf d c (tick s1) else (None, tick s1) else (None, s1) end) as [r2 s2] eqn:O2.
  assert (X : s_prot s2 = s_prot s1 /\ s_mounts s2 = s_mounts s1).
  { destruct r1; [injection O2 as _ <-; auto|]. destruct mk; [|injection O2 as _ <-; auto]. destruct (e_mkdir E (s_clock s1)); [|injection O2 as _ <-; auto].
    apply openat_spec in O2. destruct O2 as (_ & P2 & M2 & _). rewrite P2, M2. auto. }
  destruct X as [P2 M2]. destruct r2; intros [= _ <-]; cbn [sys_close s_prot s_mounts]; rewrite P2, M2; auto.
Qed.
Lemma walk_unprotected : forall E mk l nf p d s r s', walk E false mk nf p l d s = (r, s') -> s_prot s' = s_prot s /\ s_mounts s' = s_mounts s.
Proof.
  intros E mk. induction l as [|c l IH]; intros nf p d s r s'; cbn [walk]; [intros [= _ <-]; auto|]. destruct l as [|c2 l]; [apply last_unprotected|].
  rewrite andb_false_r. destruct (sys_openat E nf d c s) as [r1 s1] eqn:O1. apply openat_spec in O1. destruct O1 as (_ & P1 & M1 & _).
  destruct r1 as [next|]; [|intros [= _ <-]; auto]. unfold sys_fstat.
  destruct (if e_fail E (s_clock s1) then None else match e_fs E (s_clock s1) (snd next) with Some (NDir u m _) => Some (u, m) | _ => None end) as [[u m]|].
  - intro W. apply IH in W. cbn [sys_close tick s_prot s_mounts] in W. rewrite P1, M1 in W. exact W.
  - intros [= _ <-]. auto.
Qed.
(** Every mount is recorded, once; without SECURE_OPENDIR_PROTECT nothing is mounted. *)
Theorem nsopen_mounts : forall E pr mk id path s r s', secure_opendir E pr mk id path s = (r, s') ->
  exists new, s_prot s' = new ++ s_prot s /\ length (s_mounts s') = length new + length (s_mounts s) /\ (pr = false -> new = [] /\ s_mounts s' = s_mounts s).
Proof.
  intros E pr mk id path s r s'. unfold secure_opendir.
  assert (Z0 : forall s1, s_prot s1 = s_prot s -> s_mounts s1 = s_mounts s ->
    exists new, s_prot s1 = new ++ s_prot s /\ length (s_mounts s1) = length new + length (s_mounts s) /\ (pr = false -> new = [] /\ s_mounts s1 = s_mounts s)).
  { intros s1 P M. exists []. rewrite P, M. auto. }
  destruct (pr && negb id); [intros [= _ <-]; auto|]. destruct path as [|c path]; [intros [= _ <-]; auto|].
  destruct (Ascii.eqb c "/"%char); cbn [negb]; [|intros [= _ <-]; auto]. destruct (e_fail E (s_clock s)); [intros [= _ <-]; auto|].
  unfold opened. destruct (e_fail E (s_clock (tick s))); [intros [= _ <-]; auto|].
  destruct (directory (e_fs E (s_clock (tick s))) (Some 0)) as [i|]; [|intros [= _ <-]; auto].
  destruct (strip_slashes (c :: path)) as [|c0 [|c1 dir]]; [intros [= _ <-]; auto|intros [= _ <-]; auto|].
  intro W. destruct pr.
  - apply walk_grown in W. destruct W as (_ & new & P & M). exists new. cbn [tick s_prot s_mounts] in *. split; [exact P|]. split; [exact M|discriminate].
  - apply walk_unprotected in W. cbn [tick s_prot s_mounts] in W. apply Z0; apply W.
Qed.
(** secure_umount leaves the descriptors as they were, and never unmounts anything but what secure_opendir found. *)
Theorem nsumount_sound : forall E um path s r s', below (s_open s) (s_clock s) -> secure_umount E um path s = (r, s') ->
  s_open s' = s_open s /\ s_prot s' = s_prot s /\
  forall i, r = Some i -> um i = true /\ exists cs, names path cs /\
    (cs = [] /\ i = 0 \/ exists pre c post e u t1 t2, cs = pre ++ c :: post /\ led (e_fs E) (s_clock s) 0 pre e t1 /\ t1 <= t2 /\
       follow (e_fs E t2) e c u /\ straight (e_fs E) t2 u post i (s_clock s') /\ (post <> [] -> exists t, t2 < t /\ ~ safe (e_fs E t) u)).
Proof.
  intros E um path s r s' Bl. unfold secure_umount. destruct (secure_opendir E false false false path s) as [r1 s1] eqn:O.
  pose proof (nsopen_descriptors _ _ _ _ _ _ _ _ Bl O) as Fd. pose proof (nsopen_mounts _ _ _ _ _ _ _ _ O) as (new & P & _ & Nn).
  destruct (Nn eq_refl) as [-> _]. cbn [app] in P. destruct r1 as [[h i1]|].
  - intros [= <- <-]. split; [|split; [exact P|]].
    + apply (close_top (h, i1)); [exact Fd|]. cbn [fst]. intro I. assert (Y : h < s_clock s) by (apply Bl; exact I).
      assert (Z0 : s_clock s <= h); [|lia]. clear -O. revert O. unfold secure_opendir. cbn [andb].
      destruct path as [|c path]; [discriminate|]. destruct (negb (Ascii.eqb c "/"%char)); [discriminate|]. destruct (e_fail E (s_clock s)); [discriminate|].
      unfold opened. destruct (e_fail E (s_clock (tick s))); [discriminate|]. destruct (directory (e_fs E (s_clock (tick s))) (Some 0)) as [i|]; [|discriminate].
      assert (W : forall l nf p d s0, s_clock s <= s_clock s0 -> walk E false false nf p l d s0 = (Some (h, i1), s1) -> s_clock s <= h).
      { induction l as [|x l IH]; intros nf p d s0 L; cbn [walk]; [discriminate|]. rewrite andb_false_r. destruct l as [|y l].
        - unfold last_segment. rewrite andb_false_r. destruct (sys_openat E nf d x s0) as [[[h2 i2]|] s2] eqn:O2; [|discriminate]. apply openat_spec in O2. intros [= <- <- <-]. destruct O2 as (_ & _ & _ & -> & _). exact L.
        - destruct (sys_openat E nf d x s0) as [[[h2 i2]|] s2] eqn:O2; [|discriminate]. apply openat_spec in O2. destruct O2 as (T2 & _). unfold sys_fstat.
          destruct (if e_fail E (s_clock s2) then None else match e_fs E (s_clock s2) (snd (h2, i2)) with Some (NDir u m _) => Some (u, m) | _ => None end) as [[u m]|]; [|discriminate].
          apply IH. cbn [sys_close tick s_clock]. lia. }
      destruct (strip_slashes (c :: path)) as [|c0 [|c1 dir]]; [intros [= <- _ _]; cbn; lia|intros [= <- _ _]; cbn; lia|]. apply W. cbn. lia.
    + intros i. cbn [snd]. destruct (um i1) eqn:U; [|discriminate]. intros [= <-]. split; [exact U|]. apply nsopen_walk in O. destruct O as (cs & N & O). exists cs. split; [exact N|].
      destruct O as [O|(pre & c & post & e & u & t1 & t2 & A1 & A2 & A3 & A4 & A5 & A6 & _)]; [left; exact O|]. right. exists pre, c, post, e, u, t1, t2.
      split; [exact A1|]. split; [exact A2|]. split; [exact A3|]. split; [exact A4|]. split; [exact A5|exact A6].
  - intros [= <- <-]. split; [exact Fd|]. split; [exact P|]. discriminate.
Qed.

(** ** Examples *)
(** /data is a link of root's to /home/u/x, /home/u belongs to a user, /home/u/x is a link to [t], /home/u/d is a directory. *)
Definition sample (t : cstr) : fsys := fun i =>
  nth_error [NDir 0 493 [(lit "data", 1); (lit "home", 2); (lit "etc", 5); (lit "root", 6)]; NLink (lit "/home/u/x"); NDir 0 493 [(lit "u", 3)];
             NDir 1000 493 [(lit "x", 4); (lit "d", 7)]; NLink t; NDir 0 493 []; NDir 0 448 []; NDir 1000 493 [(lit "e", 8)]; NDir 1000 493 []] i.
Definition at_rest (t : cstr) : env := mkEnv (fun _ => sample t) (fun _ => false) (fun _ => false).
Definition start : st := mkSt 10 [2; 1; 0] [] [].
Example nsopen_example : secure_opendir (at_rest (lit "/etc")) true false true (lit "/home/u/d/e//") start =
  (Some (22, 8), mkSt 23 [22; 2; 1; 0] [lit "/home/u/d/e"; lit "/home/u/d"] [8; 7]).
Proof. vm_compute. reflexivity. Qed.
Example nsopen_link_example : fst (secure_opendir (at_rest (lit "/etc")) false false false (lit "/home/u/x") start) = None.
Proof. vm_compute. reflexivity. Qed.
Example nsopen_root_link_example : fst (secure_opendir (at_rest (lit "/home/u/d")) false false false (lit "/data/e") start) = Some (14, 8).
Proof. vm_compute. reflexivity. Qed.
Example nsopen_slashes_example : fst (secure_opendir (at_rest (lit "/etc")) false false false (lit "///") start) = Some (11, 0).
Proof. vm_compute. reflexivity. Qed.
(** The last component is made if it is missing. *)
Example nsopen_mkdir_example :
  fst (secure_opendir (mkEnv (fun t => if t <? 16 then sample (lit "/etc") else fun i => if i =? 5 then Some (NDir 0 493 [(lit "new", 9)]) else if i =? 9 then Some (NDir 0 0 []) else sample (lit "/etc") i)
     (fun _ => false) (fun _ => true)) false true false (lit "/etc/new") start) = Some (16, 9).
Proof. vm_compute. reflexivity. Qed.
Example nsumount_example : secure_umount (at_rest (lit "/etc")) (fun i => i =? 8) (lit "/home/u/d/e") start = (Some 8, mkSt 19 [2; 1; 0] [] []).
Proof. vm_compute. reflexivity. Qed.
Example start_below : below (s_open start) (s_clock start).
Proof. intros h I. cbn in *. lia. Qed.
(** The aim "not following user symlinks" is missed where a link of root's leads through a user's directory: what the user's link says then
    decides between two directories of root's. *)
Theorem nsopen_user_link_refuted : exists F1 F2 x, (forall i, i <> x -> F1 i = F2 i) /\ (forall d c, lookup F1 d c = Some x -> ~ safe F1 d) /\
  exists i1 i2, i1 <> i2 /\ safe F1 i1 /\ safe F1 i2 /\
    fst (secure_opendir (mkEnv (fun _ => F1) (fun _ => false) (fun _ => false)) false false false (lit "/data") start) = Some (12, i1) /\
    fst (secure_opendir (mkEnv (fun _ => F2) (fun _ => false) (fun _ => false)) false false false (lit "/data") start) = Some (12, i2).
Proof.
  exists (sample (lit "/etc")), (sample (lit "/root")), 4. split.
  { intros i N. unfold sample. do 4 (destruct i as [|i]; [reflexivity|]). destruct i as [|i]; [congruence|]. reflexivity. }
  split.
  { intros d c L Sf. destruct Sf as (m & es & D & _). assert (X : d = 3); [|subst d; unfold sample in D; cbn [nth_error] in D; discriminate D].
    unfold lookup in L. rewrite D in L. unfold sample in D.
    destruct d as [|[|[|[|[|[|[|[|[|d]]]]]]]]]; cbn [nth_error] in D; try discriminate D; try reflexivity; exfalso.
    1-4: injection D as <- <-; cbn [find fst snd] in L;
      repeat match type of L with context [streq ?a ?b] => destruct (streq a b); cbn [fst snd] in L end; try discriminate L.
    destruct d; discriminate D. }
  exists 5, 6. split; [discriminate|]. split; [exists 493%Z, []; vm_compute; auto|]. split; [exists 448%Z, []; vm_compute; auto|].
  split; vm_compute; reflexivity.
Qed.
(** A path with a doubled slash is not opened although the kernel would find the directory. *)
Theorem nsopen_double_slash_refuted : exists F path, directory F (resolve 40 F 0 path) = Some 5 /\
  fst (secure_opendir (mkEnv (fun _ => F) (fun _ => false) (fun _ => false)) false false false path start) = None.
Proof. exists (sample (lit "/etc")), (lit "//etc"). split; vm_compute; reflexivity. Qed.

Print Assumptions nsopen_walk.
Print Assumptions nsopen_static.
Print Assumptions nsopen_descriptors.
Print Assumptions nsopen_mounts.
Print Assumptions nsumount_sound.
Print Assumptions nsopen_user_link_refuted.
Print Assumptions nsopen_double_slash_refuted.
