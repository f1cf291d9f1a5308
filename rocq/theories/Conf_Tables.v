(** From entries to handler lists: bodies, cells, nesting levels. *)
From Coq Require Import String Ascii List Arith ZArith Lia Bool Permutation.
From Verif Require Import Base Dispatch_Model Dispatch_Sticky Dispatch_History Ctl_Model Ctl_Props Tok_Model Line_Model Conf_Model Conf_Spec Conf_Proofs.
Import ListNotations.
Local Open Scope Z_scope.

(** The two lists of a type in a table. *)
Definition list1 (ty : mtype) (t : htable) : list handler :=
  match ty with T_AUTH => t_auth t | T_SESS => t_open t | T_ACCT => t_acct t | T_PASS => t_chauthtok t end.
Definition list2 (ty : mtype) (t : htable) : list handler :=
  match ty with T_AUTH => t_setcred t | T_SESS => t_close t | _ => [] end.
Definition table (o : bool) (s : cst) : htable := if o then c_other s else c_conf s.
Definition lists (t : htable) : list handler := t_auth t ++ t_setcred t ++ t_acct t ++ t_open t ++ t_close t ++ t_chauthtok t.
Definition everything (s : cst) : list handler := lists (c_conf s) ++ lists (c_other s).

Lemma list1_push1 : forall ty ty' t h, list1 ty (push1 t ty' h) = list1 ty t ++ (if mtype_eqb ty' ty then [h] else []).
Proof. intros [] [] t h; cbn; rewrite ?app_nil_r; reflexivity. Qed.
Lemma list2_push1 : forall ty ty' t h, list2 ty (push1 t ty' h) = list2 ty t.
Proof. intros [] [] t h; reflexivity. Qed.
Lemma list1_push2 : forall ty ty' t h, list1 ty (push2 t ty' h) = list1 ty t.
Proof. intros [] [] t h; reflexivity. Qed.
Lemma list2_push2 : forall ty ty' t h, sym2 ty' <> None -> list2 ty (push2 t ty' h) = list2 ty t ++ (if mtype_eqb ty' ty then [h] else []).
Proof. intros [] [] t h H; cbn in *; rewrite ?app_nil_r; try reflexivity; congruence. Qed.

Lemma perm_mid : forall (a b c x y : list handler) h, x = a ++ (b ++ [h]) ++ c -> y = a ++ b ++ c -> Permutation x (h :: y).
Proof.
  intros a b c x y h -> ->. rewrite <- app_assoc. cbn [app]. symmetry. rewrite !app_assoc. rewrite <- (app_assoc a b (h :: c)).
  rewrite (app_assoc a b). apply Permutation_middle.
Qed.

Lemma perm_push1 : forall t ty h, Permutation (lists (push1 t ty h)) (h :: lists t).
Proof.
  intros [a b c d e f] ty h. unfold lists. destruct ty; cbn [push1 t_auth t_setcred t_acct t_open t_close t_chauthtok].
  - apply (perm_mid [] a (b ++ c ++ d ++ e ++ f)); reflexivity.
  - apply (perm_mid (a ++ b ++ c) d (e ++ f)); rewrite <- ?app_assoc; reflexivity.
  - apply (perm_mid (a ++ b) c (d ++ e ++ f)); rewrite <- ?app_assoc; reflexivity.
  - apply (perm_mid (a ++ b ++ c ++ d ++ e) f []); rewrite <- ?app_assoc, ?app_nil_r; reflexivity.
Qed.

Lemma perm_push2 : forall t ty h, sym2 ty <> None -> Permutation (lists (push2 t ty h)) (h :: lists t).
Proof.
  intros [a b c d e f] ty h H. unfold lists. destruct ty; cbn [push2 t_auth t_setcred t_acct t_open t_close t_chauthtok sym2] in *; try congruence.
  - apply (perm_mid a b (c ++ d ++ e ++ f)); rewrite <- ?app_assoc; reflexivity.
  - apply (perm_mid (a ++ b ++ c ++ d) e f); rewrite <- ?app_assoc; reflexivity.
Qed.

(** Two handlers made from the same line. *)
Definition pair_of (a b : handler) : Prop :=
  h_type a = h_type b /\ h_actions a = h_actions b /\ h_args a = h_args b /\ h_name a = h_name b /\
  h_level a = h_level b /\ h_cellp b = h_cell a.
Definition has_name (h : handler) : bool := match h_name h with [] => false | _ => true end.

Section T.
Variable symbol : cstr -> string -> option nat.
Variable module_dir : cstr.
Notation put := (put symbol module_dir).

Lemma slash_prefix : forall p, (match p with c :: _ => if Ascii.eqb c c_slash then p else module_dir ++ p | [] => module_dir ++ p end)
  = if is_prefix (lit "/") p then p else module_dir ++ p.
Proof.
  intros [|c p]; [reflexivity|]. cbn [lit list_ascii_of_string is_prefix].
  change "/"%char with c_slash. destruct (Ascii.eqb_spec c c_slash) as [->|N]; [rewrite Ascii.eqb_refl; reflexivity|].
  destruct (Ascii.eqb_spec c_slash c); [congruence|reflexivity].
Qed.

(** The handlers an entry gives. *)
Definition name_of (e : entry) : cstr := match module_name (e_module e) with Some n => n | None => [] end.
Definition h1_of (n : nat) (e : entry) : handler :=
  mkH (e_kind e) (function symbol module_dir e (sym1 (e_type e))) (e_actions e) n n (e_args e) (name_of e) (e_level e).
Definition h2_of (n : nat) (e : entry) (sy : string) : handler :=
  mkH (e_kind e) (function symbol module_dir e sy) (e_actions e) (S n) n (e_args e) (name_of e) (e_level e).

Definition on_table (o : bool) (s : cst) (f : htable -> htable) (n : nat) : cst :=
  if o then mkC (c_conf s) (f (c_other s)) n else mkC (f (c_conf s)) (c_other s) n.

Lemma put_eq : forall s e, put s e =
  match (if named e then sym2 (e_type e) else None) with
  | None => on_table (e_other e) s (fun t => push1 t (e_type e) (h1_of (c_next s) e)) (S (c_next s))
  | Some sy => on_table (e_other e) s (fun t => push2 (push1 t (e_type e) (h1_of (c_next s) e)) (e_type e) (h2_of (c_next s) e sy)) (S (S (c_next s)))
  end.
Proof.
  intros s e. unfold Conf_Proofs.put, add_handler, on_table, h1_of, h2_of, named, name_of, function. fold (module_name (e_module e)).
  destruct (module_name (e_module e)) as [nm|]; destruct (e_kind e), (e_module e) as [m|]; rewrite ?slash_prefix; destruct (e_other e); try (destruct (sym2 (e_type e))); cbn [snd]; rewrite ?slash_prefix; reflexivity.
Qed.

Lemma table_on : forall o o' (f : htable -> htable) s n,
  table o' (on_table o s f n) =
  if Bool.eqb o o' then f (table o' s) else table o' s.
Proof. intros [] [] f s n; reflexivity. Qed.

Definition mine (o : bool) (ty : mtype) (e : entry) : bool := Bool.eqb (e_other e) o && mtype_eqb (e_type e) ty.

Lemma put_list1 : forall s e o ty, list1 ty (table o (put s e)) =
  list1 ty (table o s) ++ (if mine o ty e then [h1_of (c_next s) e] else []).
Proof.
  intros s e o ty. rewrite put_eq. unfold mine.
  destruct (if named e then sym2 (e_type e) else None); rewrite table_on;
  destruct (Bool.eqb (e_other e) o); cbn [andb]; rewrite ?list1_push2, ?list1_push1, ?app_nil_r; reflexivity.
Qed.

Lemma put_list2 : forall s e o ty, list2 ty (table o (put s e)) =
  list2 ty (table o s) ++ (if mine o ty e && named e then match sym2 ty with Some sy => [h2_of (c_next s) e sy] | None => [] end else []).
Proof.
  intros s e o ty. rewrite put_eq. unfold mine.
  destruct (named e); [|rewrite andb_false_r; rewrite table_on;
    destruct (Bool.eqb (e_other e) o); rewrite ?list2_push1, ?app_nil_r; reflexivity].
  rewrite andb_true_r. destruct (sym2 (e_type e)) as [sy|] eqn:E2.
  - rewrite table_on. destruct (Bool.eqb (e_other e) o); cbn [andb]; rewrite ?app_nil_r; [|reflexivity].
    rewrite list2_push2, list2_push1 by congruence. destruct (mtype_eqb (e_type e) ty) eqn:E; [|reflexivity].
    apply mtype_eqb_spec in E. rewrite <- E, E2. reflexivity.
  - rewrite table_on. destruct (Bool.eqb (e_other e) o); cbn [andb]; rewrite ?app_nil_r; [|reflexivity].
    rewrite list2_push1. destruct (mtype_eqb (e_type e) ty) eqn:E; rewrite ?app_nil_r; [|reflexivity].
    apply mtype_eqb_spec in E. rewrite <- E, E2, app_nil_r. reflexivity.
Qed.

Lemma entries_cons : forall o ty e es, entries_for o ty (e :: es) = (if mine o ty e then [e] else []) ++ entries_for o ty es.
Proof. intros. unfold entries_for, mine. cbn [filter]. destruct (Bool.eqb (e_other e) o && mtype_eqb (e_type e) ty); reflexivity. Qed.

Lemma entries_app : forall o ty a b, entries_for o ty (a ++ b) = entries_for o ty a ++ entries_for o ty b.
Proof. intros. apply filter_app. Qed.

Lemma h1_body : forall n e, body (h1_of n e) = entry_body symbol module_dir (sym1 (e_type e)) e.
Proof. reflexivity. Qed.

Lemma mine_type : forall o ty e, mine o ty e = true -> e_type e = ty.
Proof. intros o ty e H. apply andb_true_iff in H. apply mtype_eqb_spec. tauto. Qed.

Lemma bodies1 : forall es s o ty, map body (list1 ty (table o (fold_left put es s))) =
  map body (list1 ty (table o s)) ++ map (entry_body symbol module_dir (sym1 ty)) (entries_for o ty es).
Proof.
  induction es as [|e es IH]; intros s o ty; cbn [fold_left]; [rewrite app_nil_r; reflexivity|].
  rewrite IH, put_list1, entries_cons, !map_app, <- app_assoc. f_equal. f_equal.
  destruct (mine o ty e) eqn:E; [|reflexivity]. apply mine_type in E. subst ty. reflexivity.
Qed.

Lemma bodies2 : forall es s o ty sy, sym2 ty = Some sy -> map body (list2 ty (table o (fold_left put es s))) =
  map body (list2 ty (table o s)) ++ map (entry_body symbol module_dir sy) (filter named (entries_for o ty es)).
Proof.
  induction es as [|e es IH]; intros s o ty sy HS; cbn [fold_left]; [rewrite app_nil_r; reflexivity|].
  rewrite (IH _ _ _ _ HS), put_list2, entries_cons, filter_app, !map_app, <- app_assoc, HS. f_equal. f_equal.
  destruct (mine o ty e); cbn [andb filter]; [|reflexivity]. destruct (named e); reflexivity.
Qed.

(** *** Cells *)
Definition cells_used (s : cst) : Prop := Permutation (map h_cell (everything s)) (seq 0 (c_next s)).

Lemma perm_on : forall (o : bool) s f n xs, (forall t, Permutation (lists (f t)) (xs ++ lists t)) ->
  Permutation (everything (on_table o s f n)) (xs ++ everything s).
Proof.
  intros [] s f n xs H; unfold everything, on_table; cbn [c_conf c_other].
  - rewrite H. rewrite !app_assoc. apply Permutation_app_tail. apply Permutation_app_comm.
  - rewrite H, app_assoc. reflexivity.
Qed.

Lemma put_cells : forall s e, cells_used s -> cells_used (put s e).
Proof.
  intros s e H. unfold cells_used in *. rewrite put_eq. set (n := c_next s) in *.
  destruct (if named e then sym2 (e_type e) else None) as [sy|] eqn:E.
  - assert (H2 : sym2 (e_type e) <> None) by (destruct (named e); congruence).
    assert (HP : forall t, Permutation (lists (push2 (push1 t (e_type e) (h1_of n e)) (e_type e) (h2_of n e sy))) ([h2_of n e sy; h1_of n e] ++ lists t)).
    { intros t. rewrite perm_push2 by exact H2. rewrite perm_push1. reflexivity. }
    assert (HN : c_next (on_table (e_other e) s (fun t => push2 (push1 t (e_type e) (h1_of n e)) (e_type e) (h2_of n e sy)) (S (S n))) = S (S n)) by (destruct (e_other e); reflexivity).
    rewrite HN, (Permutation_map h_cell (perm_on _ s _ _ _ HP)), map_app, H. cbn [map h2_of h1_of h_cell app]. rewrite !seq_S, <- app_assoc. cbn [Nat.add app].
    etransitivity; [apply perm_swap|apply (Permutation_app_comm [n; S n])].
  - assert (HP : forall t, Permutation (lists (push1 t (e_type e) (h1_of n e))) ([h1_of n e] ++ lists t)) by (intros t; apply perm_push1).
    assert (HN : c_next (on_table (e_other e) s (fun t => push1 t (e_type e) (h1_of n e)) (S n)) = S n) by (destruct (e_other e); reflexivity).
    rewrite HN, (Permutation_map h_cell (perm_on _ s _ _ _ HP)), map_app, H. cbn [map h1_of h_cell app]. rewrite seq_S. cbn [Nat.add].
    apply (Permutation_app_comm [n]).
Qed.

Lemma cells_all : forall es, cells_used (fold_left put es empty_cst).
Proof.
  intros es. assert (G : forall es s, cells_used s -> cells_used (fold_left put es s)).
  { induction es0 as [|e es0 IH]; intros s H; cbn [fold_left]; [exact H|]. apply IH. apply put_cells. exact H. }
  apply G. unfold cells_used. reflexivity.
Qed.

Lemma named_h1 : forall n e, has_name (h1_of n e) = named e.
Proof.
  intros n e. unfold has_name, h1_of, named, name_of. cbn [h_name]. destruct (module_name (e_module e)) as [m|] eqn:E; [|reflexivity].
  unfold module_name, extract_modulename in E.
  destruct (before_last "."%char (after_last "/"%char match e_module e with Some p => p | None => unknown_module end)) as [|c r]; [discriminate|].
  destruct (streq (c :: r) (lit "?")); [discriminate|]. injection E as <-. reflexivity.
Qed.

Lemma pairs : forall es s o ty sy, sym2 ty = Some sy ->
  Forall2 pair_of (filter has_name (list1 ty (table o s))) (list2 ty (table o s)) ->
  Forall2 pair_of (filter has_name (list1 ty (table o (fold_left put es s)))) (list2 ty (table o (fold_left put es s))).
Proof.
  induction es as [|e es IH]; intros s o ty sy HS H; cbn [fold_left]; [exact H|].
  apply (IH _ _ _ _ HS). rewrite put_list1, put_list2, filter_app, HS. apply Forall2_app; [exact H|].
  destruct (mine o ty e); cbn [andb filter]; [|constructor]. rewrite named_h1. destruct (named e); constructor; [|constructor].
  repeat split.
Qed.

Lemma own_cell : forall es s o ty, Forall (fun h => h_cellp h = h_cell h) (list1 ty (table o s)) ->
  Forall (fun h => h_cellp h = h_cell h) (list1 ty (table o (fold_left put es s))).
Proof.
  induction es as [|e es IH]; intros s o ty H; cbn [fold_left]; [exact H|]. apply IH. rewrite put_list1. apply Forall_app. split; [exact H|].
  destruct (mine o ty e); repeat constructor.
Qed.

End T.

Lemma in_everything1 : forall s o ty h, In h (list1 ty (table o s)) -> In h (everything s).
Proof. intros s o ty h H. unfold everything, lists. rewrite !in_app_iff. destruct o, ty; cbn [table list1] in H; tauto. Qed.
Lemma in_everything2 : forall s o ty h, In h (list2 ty (table o s)) -> In h (everything s).
Proof. intros s o ty h H. unfold everything, lists. rewrite !in_app_iff. destruct o, ty; cbn [table list2] in H; try (destruct H; fail); tauto. Qed.

Lemma cell_bound : forall s h, cells_used s -> In h (everything s) -> (h_cell h < c_next s)%nat.
Proof.
  intros s h H HI. apply (in_map h_cell) in HI. apply (Permutation_in _ H) in HI. apply in_seq in HI. lia.
Qed.

(** *** Nesting levels *)

Fixpoint elev (prev : nat) (sub : bool) (l : list entry) : Prop :=
  match l with
  | [] => True
  | e :: t => (e_level e <= if sub then S prev else prev)%nat /\
              elev (e_level e) (match e_kind e with HT_SUBSTACK => true | _ => false end) t
  end.

Lemma elev_weaken : forall l p b q c, ((if b : bool then S p else p) <= if c : bool then S q else q)%nat -> elev p b l -> elev q c l.
Proof. intros [|e l] p b q c H HE; cbn [elev] in *; [exact I|]. destruct HE as [H1 H2]. split; [lia|exact H2]. Qed.

Lemma elev_app : forall a b p c q, elev p c a -> elev q false b -> Forall (fun e => (q <= e_level e)%nat) a ->
  (q <= if c then S p else p)%nat -> elev p c (a ++ b).
Proof.
  induction a as [|e a IH]; intros b p c q HA HB HF HQ; cbn [app elev] in *.
  - eapply elev_weaken; [|exact HB]. exact HQ.
  - destruct HA as [H1 H2]. split; [exact H1|]. apply IH with (q := q); [exact H2|exact HB|exact (Forall_inv_tail HF)|].
    pose proof (Forall_inv HF) as X. cbn beta in X. destruct (e_kind e); lia.
Qed.

Section L.
Variable opens : cstr -> option (list (list ascii)).
Variable service : cstr.
(** Either all entries or only those with a name. *)
Variable keep : entry -> bool.
Hypothesis keep_named : forall e, nameable e -> keep e = true.

Definition sel (o : bool) (ty : mtype) (es : list entry) : list entry := filter keep (entries_for o ty es).
Definition within (level k : nat) (e : entry) : Prop := (level <= e_level e <= level + k)%nat /\ length (e_actions e) = 32%nat.
Definition fine (level k : nat) (o : bool) (ty : mtype) (es : list entry) : Prop :=
  Forall (within level k) (sel o ty es) /\ elev level false (sel o ty es).

Lemma sel_app : forall o ty a b, sel o ty (a ++ b) = sel o ty a ++ sel o ty b.
Proof. intros. unfold sel. rewrite entries_app. apply filter_app. Qed.

Lemma fine_app : forall level k o ty a b, fine level k o ty a -> fine level k o ty b -> fine level k o ty (a ++ b).
Proof.
  intros level k o ty a b [A1 A2] [B1 B2]. unfold fine. rewrite sel_app. split; [apply Forall_app; split; assumption|].
  apply elev_app with (q := level); [assumption|assumption| |lia]. eapply Forall_impl; [|exact A1]. intros e [H _]. lia.
Qed.

Lemma fine_one : forall level k o ty e, e_level e = level -> length (e_actions e) = 32%nat -> fine level k o ty [e].
Proof.
  intros level k o ty e HL HA. unfold fine, sel. rewrite entries_cons. cbn [entries_for filter]. rewrite app_nil_r.
  assert (C : filter keep (if mine o ty e then [e] else []) = [e] \/ filter keep (if mine o ty e then [e] else []) = []).
  { destruct (mine o ty e); cbn [filter]; [destruct (keep e)|]; auto. }
  destruct C as [-> | ->]; split; try constructor; cbn [elev]; auto; [split; [lia|exact HA]|lia].
Qed.

Lemma fine_nil : forall level k o ty, fine level k o ty [].
Proof. intros. split; [constructor|exact I]. Qed.

Lemma fine_cons : forall level k o ty e b, e_level e = level -> length (e_actions e) = 32%nat -> fine level k o ty b -> fine level k o ty (e :: b).
Proof. intros. change (e :: b) with ([e] ++ b). apply fine_app; [apply fine_one; assumption|assumption]. Qed.

Lemma fine_more : forall level k k' o ty es, (k <= k')%nat -> fine level k o ty es -> fine level k' o ty es.
Proof. intros level k k' o ty es H [A B]. split; [|exact B]. eapply Forall_impl; [|exact A]. intros e [X Y]. split; [lia|exact Y]. Qed.

Lemma fine_marker : forall level k o ty o' ty' m es, nameable m -> e_kind m = HT_SUBSTACK -> e_level m = level -> length (e_actions m) = 32%nat ->
  e_other m = o' -> e_type m = ty' -> Forall (fun e => e_other e = o' /\ e_type e = ty') es ->
  fine (S level) k o ty es -> fine level (S k) o ty (m :: es).
Proof.
  intros level k o ty o' ty' m es HN HK HL HA HO HT HF [F1 F2]. unfold fine, sel in *. rewrite entries_cons, filter_app.
  destruct (mine o ty m) eqn:EM; cbn [filter app].
  - rewrite (keep_named _ HN). cbn [app]. split.
    + constructor; [split; [lia|exact HA]|]. eapply Forall_impl; [|exact F1]. intros e [X Y]. split; [lia|exact Y].
    + cbn [elev]. split; [lia|]. rewrite HK. rewrite HL. eapply elev_weaken; [|exact F2]. cbn. lia.
  - assert (EN : entries_for o ty es = []).
    { clear F1 F2. induction es as [|e es IH]; [reflexivity|]. rewrite entries_cons. destruct (Forall_inv HF) as [E1 E2].
      unfold mine in *. rewrite E1, E2, <- HO, <- HT. rewrite EM. cbn [app]. apply IH. exact (Forall_inv_tail HF). }
    rewrite EN. cbn [filter]. split; [constructor|exact I].
Qed.

Definition all_of (known : option cstr) (req : option mtype) (es : list entry) : Prop :=
  (forall s, known = Some s -> Forall (fun e => for_other s (e_other e)) es) /\
  (forall t, req = Some t -> Forall (fun e => e_type e = t) es).

Lemma all_of_app : forall known req a b, all_of known req a -> all_of known req b -> all_of known req (a ++ b).
Proof. intros known req a b [A1 A2] [B1 B2]. split; intros x E; apply Forall_app; auto. Qed.

Lemma says_type : forall req ws m, says req ws m ->
  match m with
  | Nothing => True
  | Entry ty _ tab _ _ => (req = None \/ req = Some ty) /\ length tab = 32%nat
  | Inclusion ty _ _ => req = None \/ req = Some ty
  end.
Proof.
  assert (T : forall c tab, control_of c = Ok (CtlTable tab) -> length tab = 32%nat).
  { intros c tab H. destruct (control_total c) as (x & E & L). rewrite H in E. injection E as <-. apply L. }
  intros req ws m H. destruct H; auto; split; auto; eapply T; eassumption.
Qed.

Lemma concerns_known : forall known ws s ws', concerns known ws s ws' -> forall k, known = Some k -> k = s.
Proof. intros known ws s ws' H k E. destruct H; congruence. Qed.

Lemma all_of_one : forall known req ws s ws' o ty e, concerns known ws s ws' -> for_other s o -> (req = None \/ req = Some ty) ->
  e_other e = o -> e_type e = ty -> all_of known req [e].
Proof.
  intros known req ws s ws' o ty e HC HO HR <- <-. split; intros x E.
  - rewrite (concerns_known _ _ _ _ HC _ E). constructor; [exact HO|constructor].
  - constructor; [|constructor]. destruct HR; congruence.
Qed.

Lemma all_of_included : forall known req ws s ws' ty es, concerns known ws s ws' -> (req = None \/ req = Some ty) ->
  all_of (Some s) (Some ty) es -> all_of known req es.
Proof.
  intros known req ws s ws' ty es HC HR [A B]. split; intros x E.
  - apply A. f_equal. symmetry. exact (concerns_known _ _ _ _ HC _ E).
  - destruct HR as [HR|HR]; [congruence|]. apply B. congruence.
Qed.

Lemma for_other_fun : forall s a b, for_other s a -> for_other s b -> a = b.
Proof. intros s a b HA HB. unfold for_other in *. destruct a, b; auto; [symmetry; apply HB, HA; reflexivity|apply HA, HB; reflexivity]. Qed.

Lemma expands_fine :
  (forall k known req level lines ok es good, expands opens service k known req level lines ok es good ->
    (forall o ty, fine level k o ty es) /\ all_of known req es) /\
  (forall k s ty level file es good, included opens service k s ty level file es good ->
    (forall o t, fine level (pred k) o t es) /\ (k = 0%nat -> es = []) /\ all_of (Some s) (Some ty) es).
Proof.
  assert (AN : forall known req, all_of known req []) by (intros; split; intros; constructor).
  apply expands_included.
  - intros. split; [intros; apply fine_nil|apply AN].
  - auto.
  - auto.
  - intros k known req level l ls ok es good s ws o ty kind tab m args e HC HW HO HS -> HN HX [IH1 IH2].
    destruct (says_type _ _ _ HS) as [HR HL]. split; [intros; apply fine_cons; auto|].
    apply (all_of_app _ _ [_]); [|exact IH2]. eapply all_of_one; eauto.
  - intros k known req level l ls ok s ws o ty kind tab m args e HC HW HO HS -> HN.
    destruct (says_type _ _ _ HS) as [HR HL]. split; [intros; apply fine_one; auto|]. eapply all_of_one; eauto.
  - intros k known req level l ls ok s ws o ty file es1 g1 es2 good HC HW HO HS HI (I1 & I2 & I3) HX [IH1 IH2].
    pose proof (says_type _ _ _ HS) as HR. cbn beta iota in HR. split.
    + intros o' ty'. apply fine_app; [apply fine_more with (k := pred k); [lia|apply I1]|]. apply fine_app; [|apply IH1].
      destruct g1; [apply fine_nil|apply fine_one; reflexivity].
    + apply all_of_app; [eapply all_of_included; eauto|]. apply all_of_app; [|exact IH2]. destruct g1; [apply AN|]. eapply all_of_one; eauto.
  - intros k known req level l ls ok s ws o ty file es1 g1 es2 good HC HW HO HS HN HI (I1 & I2 & I3) HX [IH1 IH2].
    pose proof (says_type _ _ _ HS) as HR. cbn beta iota in HR.
    assert (HF : Forall (fun e => e_other e = o /\ e_type e = ty) es1).
    { destruct I3 as [A B]. specialize (A s eq_refl). specialize (B ty eq_refl). rewrite Forall_forall in *. intros e HE. split; [|auto].
      eapply for_other_fun; [apply A; exact HE|exact HO]. }
    split.
    + intros o' ty'. change (marker o ty level file :: es1 ++ (if g1 then [] else [fail_entry o ty level]) ++ es2)
        with ((marker o ty level file :: es1) ++ (if g1 then [] else [fail_entry o ty level]) ++ es2).
      apply fine_app; [|apply fine_app; [destruct g1; [apply fine_nil|apply fine_one; reflexivity]|apply IH1]].
      destruct k as [|k].
      * rewrite (I2 eq_refl). apply fine_one; reflexivity.
      * eapply fine_marker with (o' := o) (ty' := ty); try reflexivity; [exact HN|exact HF|apply I1].
    + apply (all_of_app _ _ [_]); [eapply all_of_one; eauto|].
      apply all_of_app; [eapply all_of_included; eauto|]. apply all_of_app; [|exact IH2]. destruct g1; [apply AN|]. eapply all_of_one; eauto.
  - intros k known req level l ls ok s ws o ty file HC HW HO HS HN.
    pose proof (says_type _ _ _ HS) as HR. cbn beta iota in HR. split; [intros; apply fine_one; reflexivity|]. eapply all_of_one; eauto.
  - intros. split; [intros; apply fine_nil|]. split; [reflexivity|apply AN].
  - intros. split; [intros; apply fine_nil|]. split; [reflexivity|apply AN].
  - intros. split; [intros; apply fine_nil|]. split; [reflexivity|apply AN].
  - intros k s ty level file f ls ok es good HF HL HX [IH1 IH2]. cbn [pred]. split; [exact IH1|]. split; [discriminate|exact IH2].
Qed.

Lemma configured_fine : forall pamconf dir es good, configured opens service pamconf dir es good -> forall o ty, fine 0 15 o ty es.
Proof.
  intros pamconf dir es good H o ty.
  assert (G : forall known f es good, file_gives opens service known f es good -> fine 0 15 o ty es).
  { intros known f es0 good0 (ls & ok & _ & HX). apply (proj1 expands_fine) in HX. apply HX. }
  destruct H; try apply fine_nil; try (eapply G; eassumption). apply fine_app; eapply G; eassumption.
Qed.
End L.

(** *** The lists are fit for the dispatcher *)
Lemma levels_bodies : forall symbol dir sy l es p b, map body l = map (entry_body symbol dir sy) es -> elev p b es -> levels_ok p b l.
Proof.
  intros symbol dir sy. induction l as [|h l IH]; intros es p b E H; cbn [levels_ok]; [exact I|].
  destruct es as [|e es]; [discriminate|]. cbn [map] in E. injection E as K1 _ _ _ _ K2 E. cbn [elev] in H. rewrite K1, K2. split; [tauto|]. eapply IH; [exact E|tauto].
Qed.

Lemma within_bodies : forall symbol dir sy l es, map body l = map (entry_body symbol dir sy) es -> Forall (within 0 15) es ->
  Forall (fun h => (h_level h < SUBSTACK_MAX)%nat /\ length (h_actions h) = 32%nat) l.
Proof.
  intros symbol dir sy. induction l as [|h l IH]; intros es E H; [constructor|].
  destruct es as [|e es]; [discriminate|]. cbn [map] in E. injection E as K1 _ K3 _ _ K2 E. destruct (Forall_inv H) as [W1 W2]. constructor.
  - rewrite K2, K3. split; [|exact W2]. unfold SUBSTACK_MAX. lia.
  - eapply IH; [exact E|exact (Forall_inv_tail H)].
Qed.

Lemma filter_true : forall (A : Type) (l : list A), filter (fun _ => true) l = l.
Proof. intros A l. induction l as [|a l IH]; [reflexivity|]. cbn [filter]. rewrite IH. reflexivity. Qed.

Lemma stacks_fit : forall symbol dir opens service pamconf d es good, configured opens service pamconf d es good ->
  let s := fold_left (put symbol dir) es empty_cst in
  forall o ty, stack_ok (c_next s) (list1 ty (table o s)) /\ stack_ok (c_next s) (list2 ty (table o s)).
Proof.
  intros symbol dir opens service pamconf d es good HC s o ty.
  pose proof (cells_all symbol dir es) as HU. fold s in HU.
  assert (N0 : forall o ty, list1 ty (table o empty_cst) = []) by (intros [] []; reflexivity).
  assert (N2 : forall o ty, list2 ty (table o empty_cst) = []) by (intros [] []; reflexivity).
  pose proof (bodies1 symbol dir es empty_cst o ty) as B1. fold s in B1. rewrite N0 in B1. cbn [map app] in B1.
  assert (OC : Forall (fun h => h_cellp h = h_cell h) (list1 ty (table o s))) by (apply own_cell; rewrite N0; constructor).
  split.
  - destruct (configured_fine opens service (fun _ => true) (fun _ _ => eq_refl) pamconf d es good HC o ty) as [F1 F2].
    unfold sel in F1, F2. rewrite filter_true in F1, F2. split; [eapply levels_bodies; eassumption|].
    pose proof (within_bodies _ _ _ _ _ B1 F1) as HWn. rewrite Forall_forall in *. intros h HI. destruct (HWn h HI) as [X Y].
    pose proof (cell_bound s h HU (in_everything1 _ _ _ _ HI)) as Z0. rewrite (OC h HI). auto.
  - destruct (sym2 ty) as [sy|] eqn:E2; [|destruct ty; try discriminate; split; constructor].
    pose proof (bodies2 symbol dir es empty_cst o ty sy E2) as B2. fold s in B2. rewrite N2 in B2. cbn [map app] in B2.
    destruct (configured_fine opens service named (fun e H => proj2 (named_nameable e) H) pamconf d es good HC o ty) as [F1 F2].
    unfold sel in F1, F2. split; [eapply levels_bodies; eassumption|].
    pose proof (within_bodies _ _ _ _ _ B2 F1) as HWn.
    assert (HP : Forall2 pair_of (filter has_name (list1 ty (table o s))) (list2 ty (table o s))).
    { eapply pairs; [exact E2|]. rewrite N0, N2. constructor. }
    assert (HQ : Forall (fun h => (h_cellp h < c_next s)%nat) (list2 ty (table o s))).
    { assert (HI1 : forall h, In h (filter has_name (list1 ty (table o s))) -> (h_cell h < c_next s)%nat).
      { intros h HI. apply filter_In in HI. apply (cell_bound s h HU). eapply in_everything1. apply HI. }
      clear -HP HI1. induction HP as [|a b l l' (_ & _ & _ & _ & _ & X) HP IH]; constructor.
      - rewrite X. apply HI1. left. reflexivity.
      - apply IH. intros h HI. apply HI1. right. exact HI. }
    rewrite Forall_forall in *. intros h HI. destruct (HWn h HI) as [X Y].
    pose proof (cell_bound s h HU (in_everything2 _ _ _ _ HI)) as Z0. auto.
Qed.
