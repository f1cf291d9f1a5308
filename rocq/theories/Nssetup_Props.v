(** Setting up the instances of pam_namespace: what is mounted where, what is changed, the descriptors, and the order of a session. *)
From Coq Require Import String Ascii List Arith ZArith Bool Lia.
From Verif Require Import Base Str_Model Str_Facts Opt_Model Opt_Facts.
From Verif Require Nsopen_Model Nsopen_Props.
From Verif Require Import Nsconf_Model Nsname_Model Nsname_Props Nssetup_Model.
Import ListNotations.
Import Nsopen_Model(ino, st, fd, mkSt, s_clock, s_open, s_prot, s_mounts, tick, sys_openat, sys_close, sys_fstat, e_fail, e_fs, secure_opendir, secure_umount, NDir).
Import Nsopen_Props(plain, follow, led, straight, safe, names, below, grown, grown_clock, openat_spec, nsopen_walk, nsopen_descriptors, nsumount_sound).

(** ** The statements *)
Definition env := Nsopen_Model.env.
(** [path] led to the directory [i] between the times [t] and [t']: through safe directories, links allowed, up to the first directory that
    is not safe, and from there without links. *)
Definition reached (E : env) (t : nat) (path : cstr) (i : ino) (t' : nat) : Prop :=
  exists cs, names path cs /\
  (cs = [] /\ i = 0 \/
   exists pre c post e u t1 t2, cs = pre ++ c :: post /\ led (e_fs E) t 0 pre e t1 /\ t1 <= t2 /\ follow (e_fs E t2) e c u /\
     straight (e_fs E) t2 u post i t' /\ (post <> [] -> exists t3, t2 < t3 /\ ~ safe (e_fs E t3) u)).
(** The same within a longer time. *)
Definition found (E : env) (t : nat) (path : cstr) (i : ino) (t' : nat) : Prop := exists a b, t <= a /\ b <= t' /\ reached E a path i b.
(** Nobody may read, write or search the directory, and root owns it. *)
Definition closed (E : env) (t : nat) (i : ino) : Prop :=
  exists m es, e_fs E t i = Some (NDir 0 m es) /\ forall k, (0 <= k < 9)%Z -> Z.testbit m k = false.
Definition is_mount (e : event) : bool := match e with EBind _ _ | ETmpfs _ => true | _ => false end.
Definition mounts (l : list event) : list event := filter is_mount l.
Definition is_script (e : event) : bool := match e with EScript _ => true | _ => false end.
Definition scripts (l : list event) : list event := filter is_script l.

(** ** Calls *)
Lemma last_handle : forall E pr mk nf p c d s h i s', Nsopen_Model.last_segment E pr mk nf p c d s = (Some (h, i), s') -> s_clock s <= h < s_clock s'.
Proof.
  intros E pr mk nf p c d s h i s'. unfold Nsopen_Model.last_segment. destruct (sys_openat E nf d c s) as [r1 s1] eqn:O1.
  apply openat_spec in O1. destruct O1 as (T1 & _ & _ & O1).
  destruct (match r1 with Some _ => (r1, s1) | None => if mk then if Nsopen_Model.e_mkdir E (s_clock s1) then sys_openat E nf d c (tick s1) else (None, tick s1) else (None, s1) end) as [r2 s2] eqn:O2.
  assert (X : match r2 with Some (h, _) => s_clock s <= h < s_clock s2 | None => True end).
  { destruct r1 as [[h1 i1]|]; [injection O2 as <- <-; lia|]. destruct mk; [|injection O2 as <- <-; exact I].
    destruct (Nsopen_Model.e_mkdir E (s_clock s1)); [|injection O2 as <- <-; exact I]. apply openat_spec in O2. destruct O2 as (T2 & _ & _ & O2).
    destruct r2 as [[h2 i2]|]; [|exact I]. cbn in *. lia. }
  clear O2 O1. destruct r2 as [[h2 i2]|]; [|discriminate]. destruct (nf && pr).
  - destruct (Nsopen_Model.protect_mount E (h2, i2) p s2) as [ok s3] eqn:P. apply Nsopen_Props.protect_spec in P. destruct P as (T3 & _). destruct ok; [|discriminate].
    destruct (sys_openat E nf d c (sys_close (h2, i2) s3)) as [r4 s4] eqn:O4. apply openat_spec in O4. destruct O4 as (T4 & _ & _ & O4). intros [= -> <-]. cbn in *. lia.
  - intros [= <- <- <-]. exact X.
Qed.
Lemma walk_handle : forall E pr mk l nf p d s h i s', Nsopen_Model.walk E pr mk nf p l d s = (Some (h, i), s') -> s_clock s <= h < s_clock s'.
Proof.
  intros E pr mk. induction l as [|c l IH]; intros nf p d s h i s'; cbn [Nsopen_Model.walk]; [discriminate|].
  destruct l as [|c2 l]; [apply last_handle|].
  destruct (sys_openat E nf d c s) as [r1 s1] eqn:O1. apply openat_spec in O1. destruct O1 as (T1 & _ & _ & O1).
  destruct r1 as [next|]; [|discriminate]. destruct (sys_fstat E next s1) as [t s2] eqn:O2. injection O2 as O2 <-. destruct t as [[u m]|]; [|discriminate].
  destruct (nf && pr).
  - destruct (Nsopen_Model.protect_mount E next (p ++ c)%list (tick s1)) as [ok s3] eqn:P. apply Nsopen_Props.protect_spec in P. destruct P as (T3 & _). destruct ok; cbn [negb]; [|discriminate].
    destruct (sys_openat E nf d c (sys_close next s3)) as [r4 s4] eqn:O4. apply openat_spec in O4. destruct O4 as (T4 & _). destruct r4 as [n2|]; [|discriminate].
    intro W. apply IH in W. cbn in *. lia.
  - intro W. apply IH in W. cbn in *. lia.
Qed.
Lemma opendir_clock : forall E pr mk id path s r s', secure_opendir E pr mk id path s = (r, s') -> s_clock s <= s_clock s'.
Proof.
  intros E pr mk id path s r s'. unfold secure_opendir. destruct (pr && negb id); [intros [= _ <-]; lia|]. destruct path as [|c path]; [intros [= _ <-]; lia|].
  destruct (Ascii.eqb c "/"%char); cbn [negb]; [|intros [= _ <-]; lia]. destruct (e_fail E (s_clock s)); [intros [= _ <-]; cbn; lia|].
  unfold Nsopen_Model.opened. destruct (e_fail E (s_clock (tick s))); [intros [= _ <-]; cbn; lia|].
  destruct (Nsopen_Model.directory (e_fs E (s_clock (tick s))) (Some 0)) as [i|]; [|intros [= _ <-]; cbn; lia].
  destruct (Nsopen_Model.strip_slashes (c :: path)) as [|c0 [|c1 dir]]; [intros [= _ <-]; cbn; lia|intros [= _ <-]; cbn; lia|].
  intro W. apply Nsopen_Props.walk_grown in W. apply grown_clock in W. cbn in W. lia.
Qed.
Lemma opendir_handle : forall E pr mk id path s h i s', secure_opendir E pr mk id path s = (Some (h, i), s') -> s_clock s <= h < s_clock s'.
Proof.
  intros E pr mk id path s h i s'. unfold secure_opendir. destruct (pr && negb id); [discriminate|]. destruct path as [|c path]; [discriminate|].
  destruct (Ascii.eqb c "/"%char); cbn [negb]; [|discriminate]. destruct (e_fail E (s_clock s)); [discriminate|].
  unfold Nsopen_Model.opened. destruct (e_fail E (s_clock (tick s))); [discriminate|].
  destruct (Nsopen_Model.directory (e_fs E (s_clock (tick s))) (Some 0)) as [j|]; [|discriminate].
  destruct (Nsopen_Model.strip_slashes (c :: path)) as [|c0 [|c1 dir]]; [intros [= <- <- <-]; cbn; lia|intros [= <- <- <-]; cbn; lia|].
  intro W. apply walk_handle in W. cbn in W. lia.
Qed.
Lemma opendir_found : forall E pr mk id path s h i s', secure_opendir E pr mk id path s = (Some (h, i), s') -> found E (s_clock s) path i (s_clock s').
Proof.
  intros E pr mk id path s h i s' H. apply nsopen_walk in H. destruct H as (cs & N & H). exists (s_clock s), (s_clock s'). split; [lia|]. split; [lia|]. exists cs. split; [exact N|].
  destruct H as [H|H]; [left; exact H|right]. destruct H as (pre & c & post & e & u & t1 & t2 & A1 & A2 & A3 & A4 & A5 & A6 & _). exists pre, c, post, e, u, t1, t2. auto 10.
Qed.
Lemma found_wider : forall E a b path i c d, found E a path i b -> c <= a -> b <= d -> found E c path i d.
Proof. intros E a b path i c d (x & y & X & Y & R) A B. exists x, y. split; [lia|]. split; [lia|]. exact R. Qed.

(** ** The descriptors *)
(** Besides those in [B] only descriptors in [hs] are open. *)
Definition inv (B hs : list nat) (s : st) : Prop :=
  (exists l, s_open s = l ++ B /\ incl l hs) /\ (forall h, In h hs -> ~ In h B) /\ below (s_open s) (s_clock s).
Lemma inv_start : forall s, below (s_open s) (s_clock s) -> inv (s_open s) [] s.
Proof. intros s Bl. split; [exists []; split; [reflexivity|intros x []]|]. split; [intros h []|exact Bl]. Qed.
Lemma inv_end : forall B s, inv B [] s -> s_open s = B.
Proof. intros B s ((l & O & I) & _ & _). destruct l as [|x l]; [exact O|]. destruct (I x (or_introl eq_refl)). Qed.
Lemma inv_tick : forall B hs s, inv B hs s -> inv B hs (tick s).
Proof. intros B hs s (A & F & Bl). split; [exact A|]. split; [exact F|]. intros h I. apply Bl in I. cbn. lia. Qed.
Lemma inv_close : forall B hs d s hs', inv B hs s -> (forall x, In x hs -> x = fst d \/ In x hs') -> incl hs' hs -> In (fst d) hs -> inv B hs' (sys_close d s).
Proof.
  intros B hs d s hs' ((l & O & I) & F & Bl) K Sub D. split; [|split].
  - exists (remove Nat.eq_dec (fst d) l). split.
    + cbn [sys_close s_open]. rewrite O, remove_app. f_equal. apply notin_remove. apply F. exact D.
    + intros x X. apply in_remove in X. destruct X as [X N]. apply I in X. apply K in X. tauto.
  - intros h H. apply F. apply Sub. exact H.
  - intros h H. cbn [sys_close s_open s_clock] in *. apply in_remove in H. apply Bl. apply H.
Qed.
Lemma inv_add : forall B hs s h s', inv B hs s -> s_clock s <= h < s_clock s' -> s_open s' = h :: s_open s -> inv B (h :: hs) s'.
Proof.
  intros B hs s h s' ((l & O & I) & F & Bl) T O'. split; [|split].
  - exists (h :: l). split; [rewrite O', O; reflexivity|]. intros x [<-|X]; [left; reflexivity|right; apply I; exact X].
  - intros x [<-|X]; [|apply F; exact X]. intro N. specialize (Bl h). rewrite O in Bl. specialize (Bl (in_or_app l B h (or_intror N))). lia.
  - rewrite O'. intros x [<-|X]; [lia|]. apply Bl in X. lia.
Qed.
Lemma inv_same : forall B hs s s', inv B hs s -> s_clock s <= s_clock s' -> s_open s' = s_open s -> inv B hs s'.
Proof. intros B hs s s' (A & F & Bl) T O. split; [rewrite O; exact A|]. split; [exact F|]. rewrite O. intros x X. apply Bl in X. lia. Qed.
Lemma inv_openat : forall B hs E nf d c s r s', inv B hs s -> sys_openat E nf d c s = (r, s') -> inv B (match r with Some e => fst e :: hs | None => hs end) s'.
Proof.
  intros B hs E nf d c s r s' V H. apply openat_spec in H. destruct H as (T & _ & _ & H). destruct r as [[h i]|].
  - destruct H as (-> & O & _). eapply inv_add; [exact V|cbn; lia|exact O].
  - eapply inv_same; [exact V|lia|exact H].
Qed.
Lemma inv_opendir : forall B hs E pr mk id path s r s', inv B hs s -> secure_opendir E pr mk id path s = (r, s') -> inv B (match r with Some e => fst e :: hs | None => hs end) s'.
Proof.
  intros B hs E pr mk id path s r s' V H. pose proof (nsopen_descriptors _ _ _ _ _ _ _ _ (proj2 (proj2 V)) H) as O. destruct r as [[h i]|].
  - eapply inv_add; [exact V|eapply opendir_handle; exact H|exact O].
  - eapply inv_same; [exact V|eapply opendir_clock; exact H|exact O].
Qed.
Lemma inv_umount : forall B hs E um path s r s', inv B hs s -> secure_umount E um path s = (r, s') -> inv B hs s'.
Proof.
  intros B hs E um path s r s' V H. pose proof (nsumount_sound _ _ _ _ _ _ (proj2 (proj2 V)) H) as (O & _). eapply inv_same; [exact V| |exact O].
  revert H. unfold secure_umount. destruct (secure_opendir E false false false path s) as [r1 s1] eqn:D. apply opendir_clock in D.
  destruct r1 as [d|]; [|intros [= _ <-]; exact D]. destruct (um (snd d)); intros [= _ <-]; exact D.
Qed.

(** ** The instance *)
Definition own_name (x : world) (p : poly) (name : cstr) : cstr := match p_method p, x_made x with TMPDIR, Made => x_tmp x | _, _ => name end.
(** A change of the new instance [name] in [parent]: the owner [u] or the mode [m] of the directory. *)
Definition dressed (E : env) (a b : nat) (parent : ino) (name : cstr) (u m : Z) (e : event) : Prop :=
  exists i t, a <= t < b /\ plain (e_fs E t) parent name i /\ (e = EChown i u \/ e = EChmod i (Z.land m 4095)).
Lemma plain_opened : forall E d c s h i s', sys_openat E true d c s = (Some (h, i), s') -> plain (e_fs E (s_clock s)) (snd d) c i /\ s_clock s' = S (s_clock s).
Proof. intros E d c s h i s' H. apply openat_spec in H. destruct H as (T & _ & _ & _ & _ & O). split; [apply Nsopen_Props.open_entry_plain; exact O|exact T]. Qed.

Ltac shut L := eapply (inv_close _ L); [|cbn [fst In]; intuition congruence|cbn [fst incl]; intros ? ?; cbn [In] in *; intuition|cbn [fst In]; intuition].

Lemma create_instance_spec : forall E x p name parent u m s rc name' same evs s', create_instance E x p name parent u m s = (rc, name', same, evs, s') ->
  s_clock s <= s_clock s' /\ (forall B hs, inv B hs s -> inv B hs s') /\ mounts evs = [] /\ scripts evs = [] /\
  (rc = PAM_SUCCESS /\ x_made x = Made \/ rc = PAM_IGNORE /\ x_made x = There /\ p_method p <> TMPDIR \/ rc = PAM_SESSION_ERR) /\
  name' = own_name x p name /\ (same = true <-> (p_method p = TMPDIR -> x_made x = Made)) /\
  (forall e, In e evs -> x_made x = Made /\ dressed E (s_clock s) (s_clock s') (snd parent) name' u m e).
Proof.
  intros E x p name parent u m s rc name' same evs s'. unfold create_instance, own_name.
  destruct (x_made x) eqn:M.
  2,3: destruct (p_method p) eqn:Me; intros [= <- <- <- <- <-]; (split; [lia|]); (split; [auto|]); (split; [reflexivity|]); (split; [reflexivity|]); (split; [intuition discriminate|]);
    (split; [reflexivity|]); (split; [intuition congruence|intros e []]).
  set (nm := if match p_method p with TMPDIR => true | _ => false end then x_tmp x else name).
  assert (Nm : nm = match p_method p with TMPDIR => x_tmp x | _ => name end) by (unfold nm; destruct (p_method p); reflexivity).
  rewrite <- Nm. clearbody nm. clear Nm.
  destruct (sys_openat E true parent nm s) as [r s1] eqn:O. pose proof (fun B hs V => inv_openat B hs _ _ _ _ _ _ _ V O) as VO.
  assert (T1 : s_clock s1 = S (s_clock s)) by (apply openat_spec in O; apply O).
  destruct r as [[h i]|].
  2:{ intros [= <- <- <- <- <-]. split; [lia|]. split; [exact VO|]. split; [reflexivity|]. split; [reflexivity|]. split; [auto|]. split; [reflexivity|]. split; [tauto|intros e []]. }
  apply plain_opened in O. destruct O as [Pl _]. unfold sys_fstat. cbn [snd].
  destruct (if e_fail E (s_clock s1) then None else match e_fs E (s_clock s1) i with Some (NDir u0 m0 _) => Some (u0, m0) | _ => None end) as [[u' m']|].
  2:{ intros [= <- <- <- <- <-]. split; [cbn; lia|]. split.
      { intros B hs V. shut (h :: hs). apply inv_tick. exact (VO B hs V). }
      split; [reflexivity|]. split; [reflexivity|]. split; [auto|]. split; [reflexivity|]. split; [tauto|intros e []]. }
  unfold works.
  assert (Fin : forall evs0 s2 rc0, (forall e, In e evs0 -> e = EChown i u \/ e = EChmod i (Z.land m 4095)) -> mounts evs0 = [] -> scripts evs0 = [] ->
    (rc0 = PAM_SUCCESS \/ rc0 = PAM_SESSION_ERR) -> s_clock s1 <= s_clock s2 -> s_open s2 = s_open s1 ->
    (rc0, nm, true, evs0, sys_close (h, i) s2) = (rc, name', same, evs, s') ->
    s_clock s <= s_clock s' /\ (forall B hs, inv B hs s -> inv B hs s') /\ mounts evs = [] /\ scripts evs = [] /\
    (rc = PAM_SUCCESS /\ Made = Made \/ rc = PAM_IGNORE /\ Made = There /\ p_method p <> TMPDIR \/ rc = PAM_SESSION_ERR) /\
    name' = nm /\ (same = true <-> (p_method p = TMPDIR -> Made = Made)) /\
    (forall e, In e evs -> Made = Made /\ dressed E (s_clock s) (s_clock s') (snd parent) name' u m e)).
  { intros evs0 s2 rc0 Ev Mo Sc Rc T2 O2 [= <- <- <- <- <-]. split; [cbn; lia|]. split.
    { intros B hs V. shut (h :: hs). eapply inv_same; [exact (VO B hs V)|exact T2|exact O2]. }
    split; [exact Mo|]. split; [exact Sc|]. split; [tauto|]. split; [reflexivity|]. split; [tauto|].
    intros e I. split; [reflexivity|]. exists i, (s_clock s). split; [cbn; lia|]. split; [exact Pl|apply Ev; exact I]. }
  destruct (u' =? u)%Z.
  - cbn [negb]. destruct (negb (e_fail E (s_clock (tick s1)))); apply Fin; cbn; auto; try (intros e []); intuition.
  - destruct (e_fail E (s_clock (tick s1))); cbn [negb].
    + apply Fin; cbn; auto. intros e [].
    + destruct (negb (e_fail E (s_clock (tick (tick s1))))); apply Fin; cbn; auto; intuition.
Qed.
Lemma land511 : forall m, Z.land m 511 = 0%Z <-> forall k, (0 <= k < 9)%Z -> Z.testbit m k = false.
Proof.
  intro m. change 511%Z with (Z.ones 9). split.
  - intros H k K. assert (X : Z.testbit (Z.land m (Z.ones 9)) k = false) by (rewrite H; apply Z.testbit_0_l).
    rewrite Z.land_spec, Z.ones_spec_low, andb_true_r in X by lia. exact X.
  - intro H. apply Z.bits_inj'. intros k K. rewrite Z.land_spec, Z.testbit_0_l. destruct (Z_lt_ge_dec k 9) as [L|G].
    + rewrite H by lia. reflexivity.
    + rewrite Z.ones_spec_high by lia. apply andb_false_r.
Qed.
Lemma check_parent_spec : forall E C d s ok s', check_inst_parent E C d s = (ok, s') ->
  s_clock s <= s_clock s' /\ s_open s' = s_open s /\ (ok = true -> c_ign C = false -> s_clock s < s_clock s' /\ closed E (s_clock s) (snd d)).
Proof.
  intros E C d s ok s'. unfold check_inst_parent. destruct (c_ign C); [intros [= <- <-]; repeat split; auto; discriminate|].
  unfold sys_fstat. intros [= <- <-]. split; [cbn; lia|]. split; [reflexivity|]. intros H _. destruct (e_fail E (s_clock s)); [discriminate|].
  destruct (e_fs E (s_clock s) (snd d)) as [[u m es| |]|] eqn:F; try discriminate. apply andb_prop in H. destruct H as [H1 H2]. apply Z.eqb_eq in H1, H2. subst u.
  split; [cbn; lia|]. exists m, es. split; [exact F|]. apply land511. exact H1.
Qed.
(** The owner and the mode of the directory at some time. *)
Definition had (E : env) (a b : nat) (i : ino) (u m : Z) : Prop := exists t es, a <= t < b /\ e_fs E t i = Some (NDir u m es).
(** How the instance [src] was found: in a directory that the path of the instances led to, closed unless that does not matter, under its own
    name and not through a link. *)
Definition instance_of (E : env) (C : cfg) (x : world) (p : poly) (a b : nat) (src : ino) : Prop :=
  exists ps parent t1 t2, poly_name (c_hash C) (c_gen C) (c_ctxt C) (x_form x) (x_raw x) (c_user C) p = Ok (PAM_SUCCESS, Some ps) /\ a <= t1 /\
    found E a (i_parent ps) parent t1 /\ t1 <= t2 < b /\ (c_ign C = false -> exists t, t1 <= t < t2 /\ closed E t parent) /\
    plain (e_fs E t2) parent (own_name x p (i_name ps)) src.
(** A change of an instance that was just made. *)
Definition fitted (E : env) (C : cfg) (x : world) (p : poly) (a b : nat) (dir : ino) (e : event) : Prop :=
  x_made x = Made /\ exists i u m, instance_of E C x p a b i /\ had E a b dir u m /\ (e = EChown i u \/ e = EChmod i (Z.land m 4095)).
(** What cleanup_tmpdirs would remove. *)
Definition kept_ok (C : cfg) (x : world) (p : poly) (k : option (cstr * cstr)) : Prop :=
  forall parent name, k = Some (parent, name) -> p_method p = TMPDIR /\ exists ps, poly_name (c_hash C) (c_gen C) (c_ctxt C) (x_form x) (x_raw x) (c_user C) p = Ok (PAM_SUCCESS, Some ps) /\
    parent = i_parent ps /\ (name = i_name ps \/ name = x_tmp x /\ x_made x = Made).

Lemma poly_name_some : forall H gen ctxt form raw user p rc ps, poly_name H gen ctxt form raw user p = Ok (rc, Some ps) -> rc = PAM_SUCCESS.
Proof.
  assert (Fin : forall prefix d rc ps, bind (set_paths prefix d) (fun r => Ok match r with None => (PAM_SESSION_ERR, None) | Some x => (PAM_SUCCESS, Some x) end) = Ok (rc, Some ps) -> rc = PAM_SUCCESS).
  { intros prefix d rc ps. destruct (set_paths prefix d) as [[y|]| |]; cbn [bind]; intro Q; congruence. }
  intros H gen ctxt form raw user p rc ps. unfold poly_name. destruct (form =? PAM_SUCCESS)%Z; cbn [negb]; [|discriminate].
  destruct (p_method p); try apply Fin; (destruct ctxt; [destruct raw; [apply Fin|discriminate]|destruct (p_shared p); [discriminate|apply Fin]]).
Qed.

Lemma setup_instance_spec : forall E C x p dir s rc k evs s', setup_instance E C x p dir s = Ok (rc, k, evs, s') ->
  s_clock s <= s_clock s' /\ (forall B hs, inv B (fst dir :: hs) s -> inv B hs s') /\ kept_ok C x p k /\
  (forall e, In e evs -> is_mount e = false -> is_script e = false -> fitted E C x p (s_clock s) (s_clock s') (snd dir) e) /\
  (mounts evs = [] /\ scripts evs = [] /\ (rc = PAM_SESSION_ERR \/ rc = PAM_IGNORE) \/
   exists src, mounts evs = [EBind src (snd dir)] /\ instance_of E C x p (s_clock s) (s_clock s') src /\
     (x_made x = Made \/ x_made x = There /\ p_method p <> TMPDIR) /\
     scripts evs = (if p_noinit p then [] else [EScript (match x_made x with Made => true | _ => false end)]) /\ rc = (if p_noinit p then PAM_SUCCESS else x_init x)).
Proof.
  intros E C x p dir s rc k evs s'. unfold setup_instance. destruct (sys_fstat E dir s) as [t s1] eqn:Fs. injection Fs as Ft <-.
  destruct t as [[u m]|].
  2:{ intros [= <- <- <- <-]. split; [cbn; lia|]. split; [intros B hs V; shut (fst dir :: hs); apply inv_tick; exact V|].
      split; [intros ? ?; discriminate|]. split; [intros e []|left; auto]. }
  assert (Had : had E (s_clock s) (S (s_clock s)) (snd dir) u m).
  { destruct (e_fail E (s_clock s)); [discriminate|]. destruct (e_fs E (s_clock s) (snd dir)) as [[u0 m0 es| |]|] eqn:F; try discriminate. injection Ft as -> ->.
    exists (s_clock s), es. split; [lia|exact F]. }
  clear Ft. destruct (poly_name (c_hash C) (c_gen C) (c_ctxt C) (x_form x) (x_raw x) (c_user C) p) as [[rc0 ps]| |] eqn:PN; cbn [bind]; try discriminate.
  destruct ps as [ps|].
  2:{ intros [= <- <- <- <-]. split; [cbn; lia|]. split; [intros B hs V; shut (fst dir :: hs); apply inv_tick; exact V|].
      split; [intros ? ?; discriminate|]. split; [intros e []|left]. destruct (rc0 =? PAM_IGNORE)%Z; auto. }
  pose proof (poly_name_some _ _ _ _ _ _ _ _ _ PN) as ->.
  assert (K1 : kept_ok C x p (match p_method p with TMPDIR => Some (i_parent ps, i_name ps) | _ => None end)).
  { intros pa nm Q. destruct (p_method p) eqn:Me; try discriminate. injection Q as <- <-. split; [reflexivity|]. exists ps. auto. }
  destruct (secure_opendir E true true true (i_parent ps) (tick s)) as [r s2] eqn:O.
  pose proof (opendir_clock _ _ _ _ _ _ _ _ O) as T2. cbn [tick s_clock] in T2.
  assert (V2 : forall B hs, inv B hs s -> inv B (match r with Some e => fst e :: hs | None => hs end) s2) by (intros B hs V; eapply inv_opendir; [apply inv_tick; exact V|exact O]).
  destruct r as [parent|].
  2:{ intros [= <- <- <- <-]. split; [cbn; lia|]. split; [intros B hs V; shut (fst dir :: hs); apply V2; exact V|].
      split; [exact K1|]. split; [intros e []|left; auto]. }
  destruct parent as [hp ip]. pose proof (opendir_found _ _ _ _ _ _ _ _ _ O) as Fo. cbn [tick s_clock] in Fo. cbn [fst] in V2. clear O.
  destruct (check_inst_parent E C (hp, ip) s2) as [ok s3] eqn:CP. apply check_parent_spec in CP. destruct CP as (T3 & O3 & Cl). cbn [snd] in Cl.
  assert (V3 : forall B hs, inv B hs s -> inv B (hp :: hs) s3) by (intros B hs V; eapply inv_same; [exact (V2 B hs V)|exact T3|exact O3]).
  destruct ok; cbn [negb].
  2:{ intros [= <- <- <- <-]. split; [cbn; lia|]. split; [intros B hs V; shut (fst dir :: hs); shut (hp :: fst dir :: hs); apply V3; exact V|].
      split; [exact K1|]. split; [intros e []|left; auto]. }
  specialize (Cl eq_refl).
  destruct (create_instance E x p (i_name ps) (hp, ip) u m s3) as [[[[rc1 name] same] evs1] s4] eqn:CI. apply create_instance_spec in CI.
  destruct CI as (T4 & V4' & Mo & Sc & Rc & Nm & Sm & Dr). cbn [snd] in Dr.
  assert (V4 : forall B hs, inv B hs s -> inv B (hp :: hs) s4) by (intros B hs V; apply V4'; apply V3; exact V). clear V4'.
  assert (Io : forall i t b, plain (e_fs E t) ip name i -> s_clock s3 <= t < b -> instance_of E C x p (s_clock s) b i).
  { intros i t b Pl Tt. exists ps, ip, (s_clock s2), t. split; [exact PN|]. split; [lia|]. split; [eapply found_wider; [exact Fo|lia|lia]|]. split; [lia|]. split; [|rewrite <- Nm; exact Pl].
    intro Ig. destruct (Cl Ig) as [Lt Cd]. exists (s_clock s2). split; [lia|exact Cd]. }
  set (kept := if same then match p_method p with TMPDIR => Some (i_parent ps, name) | _ => None end else None).
  assert (K2 : kept_ok C x p kept).
  { intros pa nm Q. unfold kept in Q. destruct same; [|discriminate]. pose proof (proj1 Sm eq_refl) as Sm'. destruct (p_method p) eqn:Me; try discriminate. injection Q as <- <-.
    split; [reflexivity|]. exists ps. split; [exact PN|]. split; [reflexivity|]. right. rewrite Nm. unfold own_name. rewrite Me, (Sm' eq_refl). auto. }
  clearbody kept.
  assert (Fit : forall e b, In e evs1 -> s_clock s4 <= b -> fitted E C x p (s_clock s) b (snd dir) e).
  { intros e b I Tb. destruct (Dr e I) as (Ma & i & t & Tt & Pl & Q). split; [exact Ma|]. exists i, u, m. split; [eapply Io; [exact Pl|lia]|]. split; [|exact Q].
    destruct Had as (t0 & es & T0 & F). exists t0, es. split; [lia|exact F]. }
  destruct (negb ((rc1 =? PAM_IGNORE) || (rc1 =? PAM_SUCCESS))%Z) eqn:Bad.
  { intros [= <- <- <- <-]. split; [cbn; lia|]. split; [intros B hs V; shut (fst dir :: hs); shut (hp :: fst dir :: hs); apply V4; exact V|].
    split; [exact K2|]. split; [intros e I _ _; apply Fit; [exact I|cbn; lia]|left; auto]. }
  destruct (sys_openat E true (hp, ip) name s4) as [r s5] eqn:O5.
  assert (V5 : forall B hs, inv B hs s -> inv B (match r with Some e => fst e :: hp :: hs | None => hp :: hs end) s5).
  { intros B hs V. apply V4 in V. pose proof (inv_openat _ _ _ _ _ _ _ _ _ V O5) as X. destruct r; exact X. }
  assert (T5 : s_clock s5 = S (s_clock s4)) by (apply openat_spec in O5; apply O5).
  destruct r as [[hi ii]|].
  2:{ intros [= <- <- <- <-]. split; [cbn; lia|]. split; [intros B hs V; shut (fst dir :: hs); shut (hp :: fst dir :: hs); apply V5; exact V|].
    split; [exact K2|]. split; [intros e I _ _; apply Fit; [exact I|cbn; lia]|left; auto]. }
  apply plain_opened in O5. destruct O5 as [Pl _]. cbn [snd fst] in *.
  assert (V6 : forall B hs s6, s_clock s5 <= s_clock s6 -> s_open s6 = s_open s5 -> inv B (fst dir :: hs) s -> inv B hs (sys_close dir (sys_close (hi, ii) (sys_close (hp, ip) s6)))).
  { intros B hs s6 T6 O6 V. shut (fst dir :: hs). shut (hi :: fst dir :: hs). shut (hi :: hp :: fst dir :: hs). eapply inv_same; [apply V5; exact V|exact T6|exact O6]. }
  unfold works. destruct (e_fail E (s_clock s5)); cbn [negb].
  { intros [= <- <- <- <-]. split; [cbn; lia|]. split; [intros B hs V; apply V6; [cbn; lia|reflexivity|exact V]|].
    split; [exact K2|]. split; [intros e I _ _; apply Fit; [exact I|cbn; lia]|left; auto]. }
  assert (New : x_made x = Made \/ x_made x = There /\ p_method p <> TMPDIR) by (destruct Rc as [[-> R]|[(-> & R1 & R2)| -> ]]; [auto|auto|discriminate]).
  assert (Nd : negb (rc1 =? PAM_IGNORE)%Z = match x_made x with Made => true | _ => false end).
  { destruct Rc as [[-> R]|[(-> & R1 & R2)| -> ]]; [rewrite R; reflexivity|rewrite R1; reflexivity|discriminate]. }
  rewrite Nd. unfold mounts, scripts in *.
  destruct (p_noinit p); intros [= <- <- <- <-]; (split; [cbn; lia|]); (split; [intros B hs V; apply V6; [cbn; lia|reflexivity|exact V]|]); (split; [exact K2|]); split.
  - intros e I Im _. apply in_app_or in I. destruct I as [I|[<-|[]]]; [apply Fit; [exact I|cbn; lia]|discriminate].
  - right. exists ii. rewrite !filter_app, Mo, Sc. split; [reflexivity|]. split; [eapply Io; [exact Pl|cbn; lia]|]. auto.
  - intros e I Im Is. rewrite <- app_assoc in I. apply in_app_or in I. destruct I as [I|[<-|[<-|[]]]]; [apply Fit; [exact I|cbn; lia]|discriminate|discriminate].
  - right. exists ii. rewrite !filter_app, Mo, Sc. split; [reflexivity|]. split; [eapply Io; [exact Pl|cbn; lia]|]. auto.
Qed.

(** ** A directory that is made *)
Definition wanted_owner (C : cfg) (p : poly) : Z := if Z.eq_dec (p_owner p) NOBODY then c_uid C else p_owner p.
Definition making (C : cfg) (p : poly) (i : ino) : list event := ((if Z.eq_dec (p_mode p) NOBODY then [] else [EChmod i (p_mode p)]) ++ [EChown i (wanted_owner C p)])%list.
Lemma create_polydir_spec : forall E C x p s r evs s', create_polydir E C x p s = (r, evs, s') ->
  s_clock s <= s_clock s' /\ (forall B hs, inv B hs s -> inv B (match r with Some d => fst d :: hs | None => hs end) s') /\
  match r with
  | Some d => found E (s_clock s) (p_dir p) (snd d) (s_clock s') /\ evs = making C p (snd d)
  | None => evs = [] \/ exists i, found E (s_clock s) (p_dir p) i (s_clock s') /\ evs = [EChmod i (p_mode p)] /\ p_mode p <> NOBODY
  end.
Proof.
  intros E C x p s r evs s'. unfold create_polydir, making, wanted_owner. destruct (secure_opendir E true true true (p_dir p) s) as [r1 s1] eqn:O.
  pose proof (opendir_clock _ _ _ _ _ _ _ _ O) as T1. pose proof (fun B hs V => inv_opendir B hs _ _ _ _ _ _ _ _ V O) as V1.
  destruct r1 as [[h i]|]; [|intros [= <- <- <-]; auto]. apply opendir_found in O. cbn [snd fst] in *.
  assert (Fail : forall evs0 s2, (evs0 = [] \/ evs0 = [EChmod i (p_mode p)] /\ p_mode p <> NOBODY) -> s_clock s1 <= s_clock s2 -> s_open s2 = s_open s1 ->
    (let '(_, s3) := secure_umount E (x_umount x) (p_dir p) (sys_close (h, i) s2) in (None, evs0, s3)) = (r, evs, s') ->
    s_clock s <= s_clock s' /\ (forall B hs, inv B hs s -> inv B (match r with Some d => fst d :: hs | None => hs end) s') /\
    match r with
    | Some d => found E (s_clock s) (p_dir p) (snd d) (s_clock s') /\ evs = ((if Z.eq_dec (p_mode p) NOBODY then [] else [EChmod (snd d) (p_mode p)]) ++ [EChown (snd d) (if Z.eq_dec (p_owner p) NOBODY then c_uid C else p_owner p)])%list
    | None => evs = [] \/ exists i, found E (s_clock s) (p_dir p) i (s_clock s') /\ evs = [EChmod i (p_mode p)] /\ p_mode p <> NOBODY
    end).
  { intros evs0 s2 Ev T2 O2. destruct (secure_umount E (x_umount x) (p_dir p) (sys_close (h, i) s2)) as [z s3] eqn:U. intros [= <- <- <-].
    assert (T3 : s_clock s2 <= s_clock s3).
    { revert U. unfold secure_umount. destruct (secure_opendir E false false false (p_dir p) (sys_close (h, i) s2)) as [r2 s4] eqn:D. apply opendir_clock in D. cbn [sys_close s_clock] in D.
      destruct r2 as [d|]; [|intros [= _ <-]; exact D]. intros [= _ <-]; exact D. }
    split; [lia|]. split.
    - intros B hs V. eapply inv_umount; [|exact U]. shut (h :: hs). eapply inv_same; [exact (V1 B hs V)|exact T2|exact O2].
    - destruct Ev as [->|[-> Ne]]; [left; reflexivity|right]. exists i. split; [eapply found_wider; [exact O|lia|lia]|auto]. }
  unfold works. destruct (Z.eqb_spec (p_mode p) NOBODY) as [Em|Em]; destruct (Z.eq_dec (p_mode p) NOBODY) as [Em'|Em']; try congruence.
  - cbn [negb]. destruct (e_fail E (s_clock s1)); cbn [negb]; [apply Fail; cbn; auto|]. intros [= <- <- <-]. split; [cbn; lia|].
    split; [intros B hs V; eapply inv_same; [exact (V1 B hs V)|cbn; lia|reflexivity]|]. split; [eapply found_wider; [exact O|lia|cbn; lia]|].
    cbn [app snd]. destruct (Z.eqb_spec (p_owner p) NOBODY), (Z.eq_dec (p_owner p) NOBODY); congruence.
  - destruct (e_fail E (s_clock s1)); cbn [negb]; [apply Fail; cbn; auto|]. destruct (e_fail E (s_clock (tick s1))); cbn [negb]; [apply Fail; cbn; auto|].
    intros [= <- <- <-]. split; [cbn; lia|].
    split; [intros B hs V; eapply inv_same; [exact (V1 B hs V)|cbn; lia|reflexivity]|]. split; [eapply found_wider; [exact O|lia|cbn; lia]|].
    cbn [app snd]. destruct (Z.eqb_spec (p_owner p) NOBODY), (Z.eq_dec (p_owner p) NOBODY); congruence.
Qed.

(** ** ns_setup *)
Lemma had_wider : forall E a b i u m c d, had E a b i u m -> c <= a -> b <= d -> had E c d i u m.
Proof. intros E a b i u m c d (t & es & T & F) A B. exists t, es. split; [lia|exact F]. Qed.
Lemma instance_wider : forall E C x p a b i c d, instance_of E C x p a b i -> c <= a -> b <= d -> instance_of E C x p c d i.
Proof.
  intros E C x p a b i c d (ps & pa & t1 & t2 & P1 & P2 & P3 & P4 & P5 & P6) A B. exists ps, pa, t1, t2. split; [exact P1|]. split; [lia|].
  split; [eapply found_wider; [exact P3|lia|lia]|]. split; [lia|]. auto.
Qed.
Lemma making_mounts : forall C p i, mounts (making C p i) = [] /\ scripts (making C p i) = [].
Proof. intros C p i. unfold making. destruct (Z.eq_dec (p_mode p) NOBODY); auto. Qed.
(** All that ns_setup does. *)
Lemma ns_setup_spec : forall E C x p s rc k evs s', ns_setup E C x p s = Ok (rc, k, evs, s') ->
  s_clock s <= s_clock s' /\ (forall B hs, inv B hs s -> inv B hs s') /\ kept_ok C x p k /\
  (mounts evs = [] /\ scripts evs = [] /\ (rc = PAM_SESSION_ERR \/ rc = PAM_IGNORE) \/
   exists dst, found E (s_clock s) (p_dir p) dst (s_clock s') /\ rc = (if p_noinit p then PAM_SUCCESS else x_init x) /\
     (p_method p = TMPFS /\ mounts evs = [ETmpfs dst] /\ scripts evs = (if p_noinit p then [] else [EScript true]) \/
      exists src, p_method p <> TMPFS /\ mounts evs = [EBind src dst] /\ instance_of E C x p (s_clock s) (s_clock s') src /\
        (x_made x = Made \/ x_made x = There /\ p_method p <> TMPDIR) /\
        scripts evs = (if p_noinit p then [] else [EScript (match x_made x with Made => true | _ => false end)]))) /\
  (forall e, In e evs -> is_mount e = false -> is_script e = false ->
     p_create p = true /\ x_noent x = true /\ (exists i, found E (s_clock s) (p_dir p) i (s_clock s') /\ In e (making C p i)) \/
     exists dir, found E (s_clock s) (p_dir p) dir (s_clock s') /\ p_method p <> TMPFS /\ fitted E C x p (s_clock s) (s_clock s') dir e).
Proof.
  intros E C x p s rc k evs s'. unfold ns_setup. destruct (secure_opendir E true false true (p_dir p) s) as [r1 s1] eqn:O.
  pose proof (opendir_clock _ _ _ _ _ _ _ _ O) as T1. pose proof (fun B hs V => inv_opendir B hs _ _ _ _ _ _ _ _ V O) as V1.
  destruct (match r1 with Some d => (Some d, [], s1) | None => if negb (x_noent x) || negb (p_create p) then (None, [], s1) else create_polydir E C x p s1 end) as [[r2 evs1] s2] eqn:O2.
  assert (X : s_clock s1 <= s_clock s2 /\ (forall B hs, inv B hs s -> inv B (match r2 with Some d => fst d :: hs | None => hs end) s2) /\ mounts evs1 = [] /\ scripts evs1 = [] /\
    (forall d, r2 = Some d -> found E (s_clock s) (p_dir p) (snd d) (s_clock s2)) /\
    (forall e, In e evs1 -> p_create p = true /\ x_noent x = true /\ exists i, found E (s_clock s) (p_dir p) i (s_clock s2) /\ In e (making C p i))).
  { destruct r1 as [[h i]|].
    - injection O2 as <- <- <-. split; [lia|]. split; [exact V1|]. split; [reflexivity|]. split; [reflexivity|]. split; [|intros e []].
      intros d [= <-]. eapply opendir_found. exact O.
    - destruct (x_noent x) eqn:Xn; cbn [negb orb] in O2.
      2:{ injection O2 as <- <- <-. split; [lia|]. split; [exact V1|]. split; [reflexivity|]. split; [reflexivity|]. split; [discriminate|intros e []]. }
      destruct (p_create p) eqn:Xc; cbn [negb] in O2.
      2:{ injection O2 as <- <- <-. split; [lia|]. split; [exact V1|]. split; [reflexivity|]. split; [reflexivity|]. split; [discriminate|intros e []]. }
      apply create_polydir_spec in O2. destruct O2 as (T2 & V2 & O2). split; [exact T2|]. split; [intros B hs V; apply V2; exact (V1 B hs V)|].
      destruct r2 as [[h i]|].
      + destruct O2 as [Fo ->]. cbn [snd] in *. split; [apply making_mounts|]. split; [apply making_mounts|].
        assert (Fo' : found E (s_clock s) (p_dir p) i (s_clock s2)) by (eapply found_wider; [exact Fo|lia|lia]). split; [intros d [= <-]; exact Fo'|].
        intros e I. split; [reflexivity|]. split; [reflexivity|]. exists i. auto.
      + assert (Y : mounts evs1 = [] /\ scripts evs1 = []) by (destruct O2 as [->|(i & _ & -> & _)]; auto). split; [apply Y|]. split; [apply Y|]. split; [discriminate|].
        intros e I. split; [reflexivity|]. split; [reflexivity|]. destruct O2 as [->|(i & Fo & -> & Ne)]; [destruct I|]. exists i. split; [eapply found_wider; [exact Fo|lia|lia]|].
        unfold making. destruct (Z.eq_dec (p_mode p) NOBODY); [contradiction|]. apply in_or_app. left. exact I. }
  clear O2 V1 O. destruct X as (T2 & V2 & Mo & Sc & Fo & Mk).
  assert (Mk' : forall t e, s_clock s2 <= t -> In e evs1 ->
     p_create p = true /\ x_noent x = true /\ (exists i, found E (s_clock s) (p_dir p) i t /\ In e (making C p i))).
  { intros t e Tt I. destruct (Mk e I) as (A & B & i & F & J). split; [exact A|]. split; [exact B|]. exists i. split; [eapply found_wider; [exact F|lia|exact Tt]|exact J]. }
  destruct r2 as [dir|].
  2:{ intros [= <- <- <- <-]. split; [lia|]. split; [exact V2|]. split; [intros ? ?; discriminate|]. split; [left; auto|]. intros e I _ _. left. apply Mk'; [lia|exact I]. }
  specialize (Fo dir eq_refl).
  assert (Inst : p_method p <> TMPFS -> bind (setup_instance E C x p dir s2) (fun '(rc, k, evs2, s) => Ok (rc, k, evs1 ++ evs2, s)%list) = Ok (rc, k, evs, s') ->
    s_clock s <= s_clock s' /\ (forall B hs, inv B hs s -> inv B hs s') /\ kept_ok C x p k /\
  (mounts evs = [] /\ scripts evs = [] /\ (rc = PAM_SESSION_ERR \/ rc = PAM_IGNORE) \/
   exists dst, found E (s_clock s) (p_dir p) dst (s_clock s') /\ rc = (if p_noinit p then PAM_SUCCESS else x_init x) /\
     (p_method p = TMPFS /\ mounts evs = [ETmpfs dst] /\ scripts evs = (if p_noinit p then [] else [EScript true]) \/
      exists src, p_method p <> TMPFS /\ mounts evs = [EBind src dst] /\ instance_of E C x p (s_clock s) (s_clock s') src /\
        (x_made x = Made \/ x_made x = There /\ p_method p <> TMPDIR) /\
        scripts evs = (if p_noinit p then [] else [EScript (match x_made x with Made => true | _ => false end)]))) /\
  (forall e, In e evs -> is_mount e = false -> is_script e = false ->
     p_create p = true /\ x_noent x = true /\ (exists i, found E (s_clock s) (p_dir p) i (s_clock s') /\ In e (making C p i)) \/
     exists dir, found E (s_clock s) (p_dir p) dir (s_clock s') /\ p_method p <> TMPFS /\ fitted E C x p (s_clock s) (s_clock s') dir e)).
  { intro Nt. destruct (setup_instance E C x p dir s2) as [[[[rc3 k3] evs3] s3]| |] eqn:SI; cbn [bind]; try discriminate. intros [= <- <- <- <-].
    apply setup_instance_spec in SI. destruct SI as (T3 & V3 & K3 & Ft & Out). split; [lia|]. split; [intros B hs V; apply V3; apply V2; exact V|]. split; [exact K3|]. split.
    - unfold mounts, scripts in *. rewrite !filter_app, Mo, Sc. cbn [app]. destruct Out as [Out|(src & O1 & O2 & O3 & O4 & O5)]; [left; exact Out|right].
      exists (snd dir). split; [eapply found_wider; [exact Fo|lia|lia]|]. split; [exact O5|]. right. exists src. split; [exact Nt|]. split; [exact O1|].
      split; [eapply instance_wider; [exact O2|lia|lia]|]. auto.
    - intros e I Im Is. apply in_app_or in I. destruct I as [I|I]; [left; apply Mk'; [lia|exact I]|right]. specialize (Ft e I Im Is).
      exists (snd dir). split; [eapply found_wider; [exact Fo|lia|lia]|]. split; [exact Nt|].
      destruct Ft as (Ma & i & u & m & Io & Ha & Q). split; [exact Ma|]. exists i, u, m. split; [eapply instance_wider; [exact Io|lia|lia]|]. split; [eapply had_wider; [exact Ha|lia|lia]|exact Q]. }
  destruct (p_method p) eqn:Me; try (apply Inst; discriminate). clear Inst.
  unfold works. destruct (e_fail E (s_clock s2)); cbn [negb].
  { intros [= <- <- <- <-]. split; [cbn; lia|]. split; [intros B hs V; shut (fst dir :: hs); apply inv_tick; apply V2; exact V|]. split; [intros ? ?; discriminate|].
    split; [left; auto|]. intros e I _ _. left. apply Mk'; [cbn; lia|exact I]. }
  destruct (p_noinit p); intros [= <- <- <- <-]; (split; [cbn; lia|]); (split; [intros B hs V; shut (fst dir :: hs); apply inv_tick; apply V2; exact V|]); (split; [intros ? ?; discriminate|]); split.
  - right. exists (snd dir). split; [eapply found_wider; [exact Fo|lia|cbn; lia]|]. split; [reflexivity|]. left. unfold mounts, scripts in *. rewrite !filter_app, Mo, Sc. auto.
  - intros e I Im _. apply in_app_or in I. destruct I as [I|[<-|[]]]; [left; apply Mk'; [cbn; lia|exact I]|discriminate].
  - right. exists (snd dir). split; [eapply found_wider; [exact Fo|lia|cbn; lia]|]. split; [reflexivity|]. left. unfold mounts, scripts in *. rewrite !filter_app, Mo, Sc. auto.
  - intros e I Im Is. apply in_app_or in I. destruct I as [I|[<-|[<-|[]]]]; [left; apply Mk'; [cbn; lia|exact I]|discriminate|discriminate].
Qed.

(** Whatever others do to the file system meanwhile. Something is mounted exactly once or not at all: a tmpfs, or an instance found in a
    closed directory under its own name; always onto a directory that the path of the entry leads to. Without it the result is an error or
    PAM_IGNORE and no script runs; with it the script runs unless the entry has noinit, and its result is the result. *)
Theorem ns_setup_mounts : forall E C x p s rc k evs s', ns_setup E C x p s = Ok (rc, k, evs, s') ->
  mounts evs = [] /\ scripts evs = [] /\ (rc = PAM_SESSION_ERR \/ rc = PAM_IGNORE) \/
  exists dst, found E (s_clock s) (p_dir p) dst (s_clock s') /\ rc = (if p_noinit p then PAM_SUCCESS else x_init x) /\
    (p_method p = TMPFS /\ mounts evs = [ETmpfs dst] /\ scripts evs = (if p_noinit p then [] else [EScript true]) \/
     exists src, p_method p <> TMPFS /\ mounts evs = [EBind src dst] /\ instance_of E C x p (s_clock s) (s_clock s') src /\
       (x_made x = Made \/ x_made x = There /\ p_method p <> TMPDIR) /\
       scripts evs = (if p_noinit p then [] else [EScript (match x_made x with Made => true | _ => false end)])).
Proof. intros E C x p s rc k evs s' H. apply ns_setup_spec in H. apply H. Qed.
(** Owner and mode change only for a directory that the entry asks to make, and for an instance made by this call; they are those of the
    entry, and those of the directory. *)
Theorem ns_setup_attributes : forall E C x p s rc k evs s' e, ns_setup E C x p s = Ok (rc, k, evs, s') -> In e evs -> is_mount e = false -> is_script e = false ->
  p_create p = true /\ x_noent x = true /\ (exists i, found E (s_clock s) (p_dir p) i (s_clock s') /\ In e (making C p i)) \/
  exists dir, found E (s_clock s) (p_dir p) dir (s_clock s') /\ p_method p <> TMPFS /\ fitted E C x p (s_clock s) (s_clock s') dir e.
Proof. intros E C x p s rc k evs s' e H. apply ns_setup_spec in H. apply H. Qed.
(** No descriptor stays open and none of the caller's is closed. *)
Theorem ns_setup_descriptors : forall E C x p s rc k evs s', below (s_open s) (s_clock s) -> ns_setup E C x p s = Ok (rc, k, evs, s') -> s_open s' = s_open s.
Proof. intros E C x p s rc k evs s' Bl H. apply ns_setup_spec in H. apply inv_end. apply (proj1 (proj2 H)). apply inv_start. exact Bl. Qed.
(** Only temporary instances are left for the clean up. *)
Theorem ns_setup_cleanup : forall E C x p s rc parent name evs s', ns_setup E C x p s = Ok (rc, Some (parent, name), evs, s') ->
  p_method p = TMPDIR /\ exists ps, poly_name (c_hash C) (c_gen C) (c_ctxt C) (x_form x) (x_raw x) (c_user C) p = Ok (PAM_SUCCESS, Some ps) /\
    parent = i_parent ps /\ (name = i_name ps \/ name = x_tmp x /\ x_made x = Made).
Proof. intros E C x p s rc parent name evs s' H. apply ns_setup_spec in H. exact (proj1 (proj2 (proj2 H)) parent name eq_refl). Qed.

(** ** A session *)
Definition polyinstantiated (p : poly) (uid : Z) : Prop := (In uid (p_uids p) -> p_exclusive p = true) /\ (~ In uid (p_uids p) -> p_exclusive p = false).
Lemma override_iff : forall p uid, ns_override p uid = false <-> polyinstantiated p uid.
Proof.
  intros p uid. unfold ns_override, polyinstantiated. destruct (existsb (Z.eqb uid) (p_uids p)) eqn:X.
  - apply existsb_exists in X. destruct X as (u & I & Q). apply Z.eqb_eq in Q. subst u. pose proof (negb_false_iff (p_exclusive p)). tauto.
  - assert (N : ~ In uid (p_uids p)).
    { intro I. assert (Y : existsb (Z.eqb uid) (p_uids p) = true) by (apply existsb_exists; exists uid; split; [exact I|apply Z.eqb_refl]). congruence. }
    tauto.
Qed.
(** An entry whose mount for the calling user goes away. *)
Definition leaving (um : unmnt) (ruid : Z) (p : poly) : Prop := um <> NO_UNMNT /\ polyinstantiated p ruid.
(** An entry that is set up. *)
Definition entering (um : unmnt) (uid ruid : Z) (p : poly) : Prop := polyinstantiated p uid /\ ~ (um = UNMNT_ONLY /\ polyinstantiated p ruid).
(** What is done for an entry. *)
Inductive done (W : surround) (um : unmnt) (uid ruid : Z) (p : poly) : list action -> Prop :=
| done_intro : forall a b c, (leaving um ruid p -> exists cwd, w_cwd W = Some cwd /\ a = (if is_prefix (p_rdir p) cwd then [ALeave (p_rdir p)] else []) /\ b = [AUnmount (p_rdir p)] /\ w_umount W (p_rdir p) = true) ->
    (~ leaving um ruid p -> a = [] /\ b = []) ->
    (entering um uid ruid p -> c = [ASetup p] /\ (w_setup W p = PAM_SUCCESS \/ w_setup W p = PAM_IGNORE)) -> (~ entering um uid ruid p -> c = []) -> done W um uid ruid p (a ++ b ++ c).
Inductive done_all (W : surround) (um : unmnt) (uid ruid : Z) : list poly -> list action -> Prop :=
| done_none : done_all W um uid ruid [] []
| done_more : forall p l a b, done W um uid ruid p a -> done_all W um uid ruid l b -> done_all W um uid ruid (p :: l) (a ++ b).
(** The first entry that cannot be done, and what was done for it. *)
Inductive stuck (W : surround) (um : unmnt) (uid ruid : Z) (p : poly) : list action -> Z -> Prop :=
| stuck_cwd : leaving um ruid p -> w_cwd W = None -> stuck W um uid ruid p [] PAM_SESSION_ERR
| stuck_umount : forall cwd, leaving um ruid p -> w_cwd W = Some cwd -> w_umount W (p_rdir p) = false ->
    stuck W um uid ruid p (if is_prefix (p_rdir p) cwd then [ALeave (p_rdir p)] else []) PAM_SESSION_ERR
| stuck_setup : forall a b rc, (leaving um ruid p -> exists cwd, w_cwd W = Some cwd /\ a = (if is_prefix (p_rdir p) cwd then [ALeave (p_rdir p)] else []) /\ b = [AUnmount (p_rdir p)] /\ w_umount W (p_rdir p) = true) ->
    (~ leaving um ruid p -> a = [] /\ b = []) -> entering um uid ruid p -> w_setup W p = rc -> rc <> PAM_SUCCESS -> rc <> PAM_IGNORE -> stuck W um uid ruid p (a ++ b ++ [ASetup p]) rc.

Lemma unmnt_cases : forall um uid ruid p,
  match dir_unmnt um uid ruid p with
  | None => ~ leaving um ruid p /\ ~ entering um uid ruid p
  | Some NO_UNMNT => ~ leaving um ruid p /\ entering um uid ruid p
  | Some UNMNT_REMNT => leaving um ruid p /\ entering um uid ruid p
  | Some UNMNT_ONLY => leaving um ruid p /\ ~ entering um uid ruid p
  end.
Proof.
  intros um uid ruid p. unfold dir_unmnt, leaving, entering. pose proof (override_iff p uid) as U. pose proof (override_iff p ruid) as R.
  destruct (ns_override p ruid), (ns_override p uid), um; cbn; intuition congruence.
Qed.
Lemma setup_loop_spec : forall W um uid ruid l rc acts, setup_loop W um uid ruid l = (rc, acts) ->
  rc = PAM_SUCCESS /\ done_all W um uid ruid l acts \/
  rc <> PAM_SUCCESS /\ exists l1 p l2 a b, l = l1 ++ p :: l2 /\ done_all W um uid ruid l1 a /\ stuck W um uid ruid p b rc /\ acts = a ++ b.
Proof.
  intros W um uid ruid. induction l as [|p l IH]; intros rc acts; cbn [setup_loop]; [intros [= <- <-]; left; split; [reflexivity|constructor]|].
  pose proof (unmnt_cases um uid ruid p) as U. set (d := dir_unmnt um uid ruid p) in *. clearbody d.
  assert (Go : forall a, done W um uid ruid p a -> forall rc2 acts2, (rc2 = PAM_SUCCESS /\ done_all W um uid ruid l acts2 \/
    rc2 <> PAM_SUCCESS /\ exists l1 q l2 x y, l = l1 ++ q :: l2 /\ done_all W um uid ruid l1 x /\ stuck W um uid ruid q y rc2 /\ acts2 = x ++ y) ->
    rc2 = PAM_SUCCESS /\ done_all W um uid ruid (p :: l) (a ++ acts2) \/
    rc2 <> PAM_SUCCESS /\ exists l1 q l2 x y, p :: l = l1 ++ q :: l2 /\ done_all W um uid ruid l1 x /\ stuck W um uid ruid q y rc2 /\ a ++ acts2 = x ++ y).
  { intros a D rc2 acts2 [[-> H]|(N & l1 & q & l2 & x & y & -> & H1 & H2 & ->)]; [left; split; [reflexivity|constructor; assumption]|right].
    split; [exact N|]. exists (p :: l1), q, l2, (a ++ x), y. split; [reflexivity|]. split; [constructor; assumption|]. split; [exact H2|]. apply app_assoc. }
  assert (St : forall b rc2, stuck W um uid ruid p b rc2 -> rc2 <> PAM_SUCCESS -> (rc2, b) = (rc, acts) -> rc = PAM_SUCCESS /\ done_all W um uid ruid (p :: l) acts \/
    rc <> PAM_SUCCESS /\ exists l1 q l2 x y, p :: l = l1 ++ q :: l2 /\ done_all W um uid ruid l1 x /\ stuck W um uid ruid q y rc /\ acts = x ++ y).
  { intros b rc2 Sk N [= <- <-]. right. split; [exact N|]. exists [], p, l, [], b. split; [reflexivity|]. split; [constructor|]. auto. }
  assert (Setup : forall a b, (leaving um ruid p -> exists cwd, w_cwd W = Some cwd /\ a = (if is_prefix (p_rdir p) cwd then [ALeave (p_rdir p)] else []) /\ b = [AUnmount (p_rdir p)] /\ w_umount W (p_rdir p) = true) ->
    (~ leaving um ruid p -> a = [] /\ b = []) -> entering um uid ruid p ->
    (if negb ((if (w_setup W p =? PAM_IGNORE)%Z then PAM_SUCCESS else w_setup W p) =? PAM_SUCCESS)%Z then (if (w_setup W p =? PAM_IGNORE)%Z then PAM_SUCCESS else w_setup W p, a ++ b ++ [ASetup p])%list
     else let '(rc, acts2) := setup_loop W um uid ruid l in (rc, (a ++ b ++ [ASetup p]) ++ acts2)%list) = (rc, acts) ->
    rc = PAM_SUCCESS /\ done_all W um uid ruid (p :: l) acts \/
    rc <> PAM_SUCCESS /\ exists l1 q l2 x y, p :: l = l1 ++ q :: l2 /\ done_all W um uid ruid l1 x /\ stuck W um uid ruid q y rc /\ acts = x ++ y).
  { intros a b L1 L2 En. destruct (Z.eqb_spec (w_setup W p) PAM_IGNORE) as [Ig|Ig].
    - cbn [negb Z.eqb]. destruct (setup_loop W um uid ruid l) as [rc2 acts2] eqn:R. intros [= <- <-]. apply Go; [|apply IH; reflexivity].
      constructor; [exact L1|exact L2|intros _; auto|intro X; contradiction].
    - destruct (Z.eqb_spec (w_setup W p) PAM_SUCCESS) as [Su|Su]; cbn [negb].
      + destruct (setup_loop W um uid ruid l) as [rc2 acts2] eqn:R. intros [= <- <-]. apply Go; [|apply IH; reflexivity].
        constructor; [exact L1|exact L2|intros _; auto|intro X; contradiction].
      + apply St; [|exact Su]. apply stuck_setup; auto. }
  destruct d as [[]|].
  - destruct U as [U1 U2]. cbn [Z.eqb negb]. change ([] ++ [ASetup p])%list with ([] ++ [] ++ [ASetup p])%list. apply Setup; [contradiction|auto|exact U2].
  - destruct U as [U1 U2]. destruct (w_cwd W) as [cwd|] eqn:Cw.
    2:{ cbn [Z.eqb negb]. apply St; [apply stuck_cwd; assumption|discriminate]. }
    destruct (w_umount W (p_rdir p)) eqn:Um; cbn [Z.eqb negb].
    + rewrite <- app_assoc. apply Setup; [|contradiction|exact U2]. intros _. exists cwd. auto.
    + apply St; [apply stuck_umount; assumption|discriminate].
  - destruct U as [U1 U2]. destruct (w_cwd W) as [cwd|] eqn:Cw.
    2:{ cbn [Z.eqb negb]. apply St; [apply stuck_cwd; assumption|discriminate]. }
    destruct (w_umount W (p_rdir p)) eqn:Um; cbn [Z.eqb negb].
    + destruct (setup_loop W um uid ruid l) as [rc2 acts2] eqn:R. intros [= <- <-]. apply Go; [|apply IH; reflexivity].
      rewrite <- (app_nil_r [AUnmount (p_rdir p)]). constructor; [intros _; exists cwd; auto|contradiction|contradiction|reflexivity].
    + apply St; [apply stuck_umount; assumption|discriminate].
  - destruct U as [U1 U2]. intro H. apply (Go []); [|apply IH; exact H]. change (@nil action) with ([] ++ [] ++ [] : list action)%list. constructor; [contradiction|auto|contradiction|reflexivity].
Qed.
Lemma needs_iff : forall um uid ruid l, existsb (needs um uid ruid) l = true <-> exists p, In p l /\ (polyinstantiated p uid \/ leaving um ruid p).
Proof.
  intros um uid ruid l. rewrite existsb_exists. split; intros (p & I & H); exists p; (split; [exact I|]).
  - unfold needs in H. apply orb_prop in H. destruct H as [H|H]; [left; apply override_iff; apply negb_true_iff; exact H|right].
    unfold leaving. rewrite <- override_iff. destruct um; [discriminate| |]; (split; [discriminate|apply negb_true_iff; exact H]).
  - unfold needs. apply orb_true_intro. unfold leaving in H. rewrite <- !override_iff in H. destruct H as [H|[N H]]; [left; rewrite H; reflexivity|right].
    destruct um; [congruence|rewrite H; reflexivity|rewrite H; reflexivity].
Qed.
(** A session leaves the namespace of its parent exactly if an entry applies; then either all entries are done in their order, or the result
    is an error after the first that failed, and the temporary directories are cleaned up. *)
Theorem ns_session : forall W um slave uid ruid l rc acts, setup_namespace W um slave uid ruid l = (rc, acts) ->
  ((forall p, In p l -> ~ polyinstantiated p uid /\ ~ leaving um ruid p) -> rc = PAM_SUCCESS /\ acts = []) /\
  ((exists p, In p l /\ (polyinstantiated p uid \/ leaving um ruid p)) ->
   acts = [] /\ rc = PAM_SESSION_ERR /\ w_unshare W = false \/
   w_unshare W = true /\ slave = true /\ w_slave W = false /\ acts = [AUnshare] /\ rc = PAM_SESSION_ERR \/
   w_unshare W = true /\ exists pre, pre = AUnshare :: (if slave then [ASlave] else []) /\ (slave = true -> w_slave W = true) /\
     ((exists a, done_all W um uid ruid l a /\
        (rc = PAM_SUCCESS /\ acts = pre ++ a /\ w_data1 W = true /\ w_data2 W = true \/
         rc = PAM_SYSTEM_ERR /\ acts = pre ++ a ++ [ACleanup] /\ (w_data1 W = false \/ w_data2 W = false))) \/
      exists l1 p l2 a b, l = l1 ++ p :: l2 /\ done_all W um uid ruid l1 a /\ stuck W um uid ruid p b rc /\ rc <> PAM_SUCCESS /\ acts = pre ++ a ++ b ++ [ACleanup])).
Proof.
  intros W um slave uid ruid l rc acts. unfold setup_namespace. destruct (existsb (needs um uid ruid) l) eqn:N; cbn [negb].
  2:{ intros [= <- <-]. split; [auto|]. intro X. apply needs_iff in X. congruence. }
  intro H. split.
  { intro X. apply needs_iff in N. destruct N as (p & I & N). destruct (X p I) as [X1 X2]. tauto. }
  intros _. destruct (w_unshare W); cbn [negb] in H; [right|left; injection H as <- <-; auto].
  destruct slave, (w_slave W) eqn:Sl; cbn [negb andb] in H; try (left; injection H as <- <-; auto; fail); right; (split; [reflexivity|]);
    destruct (setup_loop W um uid ruid l) as [rc1 acts1] eqn:R; apply setup_loop_spec in R; eexists; (split; [reflexivity|]); (split; [auto; discriminate|]);
    (destruct R as [[-> R]|(Ne & l1 & p & l2 & a & b & -> & R1 & R2 & ->)]; [left; exists acts1; split; [exact R|]|right]).
  1,3,5: cbn [Z.eqb negb] in H; destruct (w_data1 W); cbn [negb] in H; [destruct (w_data2 W); cbn [negb] in H|]; injection H as <- <-; auto 10.
  all: destruct (Z.eqb_spec rc1 PAM_SUCCESS) as [X|_]; [congruence|]; cbn [negb] in H; injection H as <- <-; exists l1, p, l2, a, b; rewrite <- ?app_assoc; auto 10.
Qed.
(** The directories of the entries that apply, in order. *)
Inductive applying (uid : Z) : list poly -> list cstr -> Prop :=
| applying_nil : applying uid [] []
| applying_yes : forall p l ds, polyinstantiated p uid -> applying uid l ds -> applying uid (p :: l) (p_dir p :: ds)
| applying_no : forall p l ds, ~ polyinstantiated p uid -> applying uid l ds -> applying uid (p :: l) ds.
(** Closing a session unmounts every entry that applies, in order, and cleans up; it stops at the first that cannot be unmounted. *)
Theorem ns_session_close : forall um uid l rc acts, orig_namespace um uid l = (rc, acts) -> exists ds, applying uid l ds /\
  (rc = PAM_SUCCESS /\ (forall d, In d ds -> um d = true) /\ acts = map AUnmount ds ++ [ACleanup] \/
   rc = PAM_SESSION_ERR /\ exists d1 d d2, ds = d1 ++ d :: d2 /\ (forall x, In x d1 -> um x = true) /\ um d = false /\ acts = map AUnmount d1).
Proof.
  intros um uid. induction l as [|p l IH]; intros rc acts; cbn [orig_namespace].
  - intros [= <- <-]. exists []. split; [constructor|]. left. split; [reflexivity|]. split; [intros d []|reflexivity].
  - destruct (orig_namespace um uid l) as [rc1 acts1]. destruct (IH rc1 acts1 eq_refl) as (ds & Ap & R). destruct (ns_override p uid) eqn:Ov.
    + intros [= <- <-]. exists ds. split; [apply applying_no; [rewrite <- override_iff; congruence|exact Ap]|exact R].
    + apply override_iff in Ov. destruct (um (p_dir p)) eqn:U; cbn [negb]; intros [= <- <-]; exists (p_dir p :: ds); (split; [apply applying_yes; assumption|]).
      * destruct R as [(-> & A & ->)|(-> & d1 & d & d2 & -> & A & B & ->)].
        -- left. split; [reflexivity|]. split; [intros d [<-|I]; auto|reflexivity].
        -- right. split; [reflexivity|]. exists (p_dir p :: d1), d, d2. split; [reflexivity|]. split; [intros x [<-|I]; auto|]. auto.
      * right. split; [reflexivity|]. exists [], (p_dir p), ds. split; [reflexivity|]. split; [intros x []|]. auto.
Qed.

(** ** Examples *)
(** /tmp for everyone; /inst with the mode [m], joe in it is [j]. *)
Definition fs0 (m : Z) (j : Nsopen_Model.node) : Nsopen_Model.fsys := fun i =>
  match i with
  | 0 => Some (NDir 0 493 [(lit "tmp", 1); (lit "inst", 2)])
  | 1 => Some (NDir 0 1023 [])
  | 2 => Some (NDir 0 m [(lit "joe", 3); (lit "a1b2c3", 4)])
  | 3 => Some j
  | 4 => Some (NDir 0 256 [])
  | _ => None
  end.
Definition env0 (m : Z) (j : Nsopen_Model.node) : env := Nsopen_Model.mkEnv (fun _ => fs0 m j) (fun _ => false) (fun _ => false).
Definition cfg0 : cfg := mkCfg H0 false false false (lit "joe") 1000.
Definition world0 (m : made) : world := mkWorld false PAM_SUCCESS None m (lit "a1b2c3") PAM_SUCCESS (fun _ => true).
Definition poly0 (m : polymethod) (noinit : bool) : poly := mkPoly (lit "/tmp") (lit "/tmp") (lit "/inst/") m [0%Z] false false noinit false false false None None 0 NOBODY NOBODY NOBODY.
Definition start : st := mkSt 7 [3; 5] [] [].
Definition outcome (r : res (Z * option (cstr * cstr) * list event * st)) : option (Z * option (cstr * cstr) * list event * list nat) :=
  match r with Ok (rc, k, evs, s) => Some (rc, k, evs, s_open s) | _ => None end.
Example ns_setup_example :
  outcome (ns_setup (env0 0 (NDir 5 256 [])) cfg0 (world0 Made) (poly0 USER false) start) =
    Some (PAM_SUCCESS, None, [EChown 3 0; EChmod 3 1023; EBind 3 1; EScript true], [3; 5]) /\
  outcome (ns_setup (env0 0 (NDir 5 256 [])) cfg0 (world0 There) (poly0 USER true) start) = Some (PAM_SUCCESS, None, [EBind 3 1], [3; 5]) /\
  outcome (ns_setup (env0 0 (Nsopen_Model.NLink (lit "/tmp"))) cfg0 (world0 There) (poly0 USER false) start) = Some (PAM_SESSION_ERR, None, [], [3; 5]) /\
  outcome (ns_setup (env0 448 (NDir 5 256 [])) cfg0 (world0 There) (poly0 USER false) start) = Some (PAM_SESSION_ERR, None, [], [3; 5]) /\
  outcome (ns_setup (env0 0 (NDir 5 256 [])) cfg0 (world0 Made) (poly0 TMPDIR false) start) =
    Some (PAM_SUCCESS, Some (lit "/inst/", lit "a1b2c3"), [EChmod 4 1023; EBind 4 1; EScript true], [3; 5]) /\
  outcome (ns_setup (env0 0 (NDir 5 256 [])) cfg0 (world0 There) (poly0 TMPFS false) start) = Some (PAM_SUCCESS, None, [ETmpfs 1; EScript true], [3; 5]).
Proof. vm_compute. auto 10. Qed.
Example ns_start_example : below (s_open start) (s_clock start).
Proof. intros h [<-|[<-|[]]]; cbn; lia. Qed.
(** A directory that the entry asks to make: it is there at the second try. *)
Definition late : env := Nsopen_Model.mkEnv (fun t i => match i with 0 => if Nat.ltb t 12 then Some (NDir 0 493 [(lit "inst", 2)]) else fs0 0 (NDir 5 256 []) 0 | _ => fs0 0 (NDir 5 256 []) i end) (fun _ => false) (fun _ => true).
Example ns_setup_create_example :
  outcome (ns_setup late cfg0 (mkWorld true PAM_SUCCESS None There [] PAM_SUCCESS (fun _ => true))
    (mkPoly (lit "/tmp") (lit "/tmp") (lit "/inst/") USER [] false true true false false false None None 0 NOBODY NOBODY 448) start) =
    Some (PAM_SUCCESS, None, [EChmod 1 448; EChown 1 1000; EBind 3 1], [3; 5]).
Proof. vm_compute. reflexivity. Qed.
Definition sur0 (f : poly -> Z) : surround := mkSur true true (Some (lit "/tmp/x")) (fun _ => true) f true true.
Example ns_session_example :
  setup_namespace (sur0 (fun _ => PAM_SUCCESS)) UNMNT_REMNT true 1000 1001 [poly0 USER false; poly0 TMPFS true] =
    (PAM_SUCCESS, [AUnshare; ASlave; ALeave (lit "/tmp"); AUnmount (lit "/tmp"); ASetup (poly0 USER false); ALeave (lit "/tmp"); AUnmount (lit "/tmp"); ASetup (poly0 TMPFS true)]) /\
  setup_namespace (sur0 (fun _ => PAM_SUCCESS)) NO_UNMNT true 0 1001 [poly0 USER false] = (PAM_SUCCESS, []) /\
  setup_namespace (sur0 (fun _ => PAM_SESSION_ERR)) NO_UNMNT false 1000 0 [poly0 USER false; poly0 TMPFS true] = (PAM_SESSION_ERR, [AUnshare; ASetup (poly0 USER false); ACleanup]) /\
  setup_namespace (sur0 (fun _ => PAM_SUCCESS)) UNMNT_REMNT false 0 1000 [poly0 USER false] = (PAM_SUCCESS, [AUnshare; ALeave (lit "/tmp"); AUnmount (lit "/tmp")]).
Proof. vm_compute. auto. Qed.
Example ns_session_close_example :
  orig_namespace (fun _ => true) 1000 [poly0 USER false; poly0 TMPDIR true] = (PAM_SUCCESS, [AUnmount (lit "/tmp"); AUnmount (lit "/tmp"); ACleanup]) /\
  orig_namespace (fun _ => false) 1000 [poly0 USER false; poly0 TMPDIR true] = (PAM_SESSION_ERR, []) /\
  orig_namespace (fun _ => false) 0 [poly0 USER false] = (PAM_SUCCESS, [ACleanup]).
Proof. vm_compute. auto. Qed.

(** ** What does not hold *)
(** unmnt_only does set up an instance: for an entry that applies to the user but not to the caller. *)
Theorem ns_unmount_only_refuted : exists W uid ruid p acts, setup_namespace W UNMNT_ONLY false uid ruid [p] = (PAM_SUCCESS, acts) /\ In (ASetup p) acts.
Proof. exists (sur0 (fun _ => PAM_SUCCESS)), 1000%Z, 0%Z, (poly0 USER false). eexists. split; [vm_compute; reflexivity|]. vm_compute. auto. Qed.
(** What the clean up removes need not have been made by the session: before mkdtemp has run, the name is the template. *)
Theorem ns_cleanup_refuted : exists E C x p s parent s', x_made x = Refused /\ ns_setup E C x p s = Ok (PAM_SESSION_ERR, Some (parent, lit "XXXXXX"), [], s').
Proof. exists (env0 448 (NDir 5 256 [])), cfg0, (world0 Refused), (poly0 TMPDIR false), start, (lit "/inst/"). eexists. split; [reflexivity|]. vm_compute. reflexivity. Qed.
(** The working directory counts as inside a directory whose name only begins its own. *)
Theorem ns_cwd_refuted : exists W uid p acts, w_cwd W = Some (lit "/tmpfoo") /\ p_rdir p = lit "/tmp" /\
  setup_namespace W UNMNT_REMNT false uid uid [p] = (PAM_SUCCESS, acts) /\ In (ALeave (lit "/tmp")) acts.
Proof. exists (mkSur true true (Some (lit "/tmpfoo")) (fun _ => true) (fun _ => PAM_SUCCESS) true true), 1000%Z, (poly0 USER false). eexists. split; [reflexivity|]. split; [reflexivity|]. split; [vm_compute; reflexivity|]. vm_compute. auto. Qed.

Print Assumptions ns_setup_mounts.
Print Assumptions ns_setup_attributes.
Print Assumptions ns_setup_descriptors.
Print Assumptions ns_setup_cleanup.
Print Assumptions ns_session.
Print Assumptions ns_session_close.
Print Assumptions ns_unmount_only_refuted.
Print Assumptions ns_cleanup_refuted.
Print Assumptions ns_cwd_refuted.
