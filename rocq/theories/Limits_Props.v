(** Theorems about pam_limits. *)
From Coq Require Import String Ascii List Arith ZArith Bool Lia.
From Verif Require Import Base Num_Model Str_Model Str_Facts Opt_Model Opt_Facts Limits_Model Limits_Facts Limits_Kernel.
Import ListNotations.
Local Open Scope Z_scope.

(** ** The entries of a configuration *)
Definition lower (s : cstr) : cstr := map tolower s.
(** A line for the user: its precedence, the group counted together if any, and its words in lower case. *)
Record entry := mkE { e_src : Z; e_grp : option cstr; e_type : cstr; e_item : cstr; e_value : cstr }.
Definition line_is (g : groups) (w : who) (l : cstr) (e : entry) : Prop :=
  exists b d t i v, body l b /\ fields4 b d t i v /\ applies g w d (e_src e) (e_grp e) /\ e_type e = lower t /\ e_item e = lower i /\ e_value e = lower v.
(** A line of a domain for the user and a dash. *)
Definition line_exempts (g : groups) (w : who) (l : cstr) : Prop := exists b d t, body l b /\ fields2 b d ("-"%char :: t) /\ exempts g w d.
(** The entries of some lines, none of which exempts the user. *)
Inductive reads (g : groups) (w : who) : list cstr -> list entry -> Prop :=
| reads_none : reads g w [] []
| reads_other : forall l ls es, ~ line_exempts g w (cut l) -> (forall e, ~ line_is g w (cut l) e) -> reads g w ls es -> reads g w (l :: ls) es
| reads_entry : forall l ls e es, ~ line_exempts g w (cut l) -> line_is g w (cut l) e -> reads g w ls es -> reads g w (l :: ls) (e :: es).

Definition apply_entry (nr : option cstr) (p : limits) (e : entry) : limits :=
  process_limit nr (e_src e) (e_type e) (e_item e) (e_value e) (match e_grp e with Some n => put_group n p | None => p end).

Lemma tolower_dash : forall c, tolower c = "-"%char <-> c = "-"%char.
Proof. intros c. split; [|intros ->; reflexivity]. destruct c as [[] [] [] [] [] [] [] []]; intro H; vm_compute in H; (discriminate || reflexivity). Qed.
Lemma starts_lower : forall t, starts "-"%char (map tolower t) = true <-> exists t', t = "-"%char :: t'.
Proof. intros [|c t]; cbn [map starts]; [split; [discriminate|intros (t' & Q); discriminate]|]. rewrite Ascii.eqb_eq, tolower_dash. split; [intros ->; eauto|intros (t' & Q); congruence]. Qed.

Section Lines.
Variables (nr : option cstr) (g : groups) (w : who).
Hypothesis NC : ~ In ":"%char (w_name w).
Hypothesis named : forall m, g_nam_gid g (w_name w) m = true -> g_name g m <> None.

Lemma applies_unique : forall d s n s' n', applies g w d s n -> applies g w d s' n' -> s = s' /\ n = n'.
Proof.
  intros d s n s' n' A B. pose proof (applies_got g w NC _ _ _ A) as GA. pose proof (applies_got g w NC _ _ _ B) as GB. rewrite GA in GB. assert (T : forall s n, applies g w d s n -> n <> None -> s = 2) by (clear; intros s n A; destruct A; congruence).
  destruct n as [n|], n' as [n'|]; try discriminate; cbn [hit_of] in GB; [|injection GB as <-; auto]. split; [|congruence]. rewrite (T _ _ A), (T _ _ B); congruence.
Qed.
Theorem limits_line : forall l p, line_text l ->
  match one_line nr g w l p with
  | Exempt => line_exempts g w l
  | Broken => False
  | Go p' => ~ line_exempts g w l /\ ((exists e, line_is g w l e /\ p' = apply_entry nr p e) \/ (p' = p /\ forall e, ~ line_is g w l e))
  end.
Proof.
  intros l p LT. assert (BS : forall b, body l b -> strip l = b) by (intros b; apply body_strip; exact LT). assert (BB : body l (strip l)) by (apply body_strip; [exact LT|reflexivity]). unfold one_line.
  (* what the fields of the line can be *)
  assert (F4 : forall b d t i v, body l b -> fields4 b d t i v -> split (strip l) = [d; t; i; v]) by (intros b d t i v B F; rewrite (BS b B); apply split_fields4; exact F).
  assert (F2 : forall b d t, body l b -> fields2 b d t -> split (strip l) = [d; t]) by (intros b d t B F; rewrite (BS b B); apply split_fields2; exact F).
  assert (EX : line_exempts g w l <-> exists d t, split (strip l) = [d; "-"%char :: t] /\ exempts g w d).
  { split; [intros (b & d & t & B & F & A); exists d, t; split; [apply (F2 b); assumption|exact A]|]. intros (d & t & S0 & A). exists (strip l), d, t. split; [exact BB|]. split; [apply split_fields2; exact S0|exact A]. }
  assert (IS : forall e, line_is g w l e <-> exists d t i v, split (strip l) = [d; t; i; v] /\ applies g w d (e_src e) (e_grp e) /\ e_type e = lower t /\ e_item e = lower i /\ e_value e = lower v).
  { intros e. split; [intros (b & d & t & i & v & B & F & A); exists d, t, i, v; split; [apply (F4 b); assumption|exact A]|]. intros (d & t & i & v & S0 & A). exists (strip l), d, t, i, v. split; [exact BB|]. split; [apply split_fields4; exact S0|exact A]. }
  assert (NO : forall k, (forall d t, split (strip l) <> [d; t]) -> (forall d t i v, split (strip l) <> [d; t; i; v]) -> k = p -> ~ line_exempts g w l /\ ((exists e, line_is g w l e /\ k = apply_entry nr p e) \/ (k = p /\ forall e, ~ line_is g w l e))).
  { intros k N2 N4 ->. split; [rewrite EX; intros (d & t & Q & _); exact (N2 _ _ Q)|]. right. split; [reflexivity|]. intros e. rewrite IS. intros (d & t & i & v & Q & _). exact (N4 _ _ _ _ Q). }
  clear F4 F2. destruct (strip l) as [|c0 b0] eqn:SB; [apply NO; [discriminate|discriminate|reflexivity]|]. set (b := c0 :: b0) in *. clearbody b.
  destruct (split b) as [|d fs] eqn:SP; [apply NO; [discriminate|discriminate|reflexivity]|].
  pose proof (got_applies g w NC named d) as GA. pose proof (let_off_iff g w NC d) as LO. unfold got in GA. unfold let_off in LO.
  destruct fs as [|t [|i [|v [|? ?]]]]; try (destruct (parse_uid_range d); (apply NO; [intros ? ?; discriminate|intros ? ? ? ?; discriminate|reflexivity])); clear NO.
  - (* two fields *)
    assert (IS' : forall e, ~ line_is g w l e) by (intro e; rewrite IS; intros (d' & t' & i & v & Q & _); discriminate).
    destruct (starts "-"%char (map tolower t)) eqn:ST.
    + apply starts_lower in ST. destruct ST as (t' & ->).
      assert (KEY : forall r, r = parse_uid_range d -> r <> RErr -> match (if exempt_hit g w d r then Exempt else Go p) with Exempt => line_exempts g w l | Broken => False | Go p' => ~ line_exempts g w l /\ ((exists e, line_is g w l e /\ p' = apply_entry nr p e) \/ (p' = p /\ forall e, ~ line_is g w l e)) end).
      { intros r RD NE. assert (LO' : exempt_hit g w d r = true <-> exempts g w d) by (rewrite <- LO, <- RD; destruct r; try reflexivity; contradiction). destruct (exempt_hit g w d r).
        - apply EX. exists d, t'. split; [reflexivity|]. apply LO'. reflexivity.
        - split; [|right; auto]. rewrite EX. intros (d' & t'' & Q & A). assert (d' = d) by congruence. subst d'. apply LO' in A. discriminate. }
      destruct (parse_uid_range d) eqn:R; try (apply KEY; [reflexivity|discriminate]). split; [|right; auto]. rewrite EX. intros (d' & t'' & Q & A). assert (d' = d) by congruence. subst d'. apply LO in A. discriminate.
    + assert (R : match parse_uid_range d with RErr => Go p | _ => Go p end = Go p) by (destruct (parse_uid_range d); reflexivity). destruct (parse_uid_range d); (split; [|right; auto]); rewrite EX; intros (d' & t' & Q & _); assert (t = "-"%char :: t') by congruence; subst t; assert (starts "-"%char (map tolower ("-"%char :: t')) = true) by (apply starts_lower; eauto); congruence.
  - (* four fields *)
    assert (EX' : ~ line_exempts g w l) by (rewrite EX; intros (d' & t' & Q & _); discriminate).
    assert (KEY : match (match (match parse_uid_range d with RErr => Miss | _ => domain_hit g w d (parse_uid_range d) end) with
                  | Miss => Go p | Hit src => Go (process_limit nr src (map tolower t) (map tolower i) (map tolower v) p)
                  | HitGroup n => Go (process_limit nr DEF_ALLGROUP (map tolower t) (map tolower i) (map tolower v) (put_group n p)) | Crash => Broken end)
                  with Exempt => line_exempts g w l | Broken => False | Go p' => ~ line_exempts g w l /\ ((exists e, line_is g w l e /\ p' = apply_entry nr p e) \/ (p' = p /\ forall e, ~ line_is g w l e)) end).
    { assert (GA' : match (match parse_uid_range d with RErr => Miss | _ => domain_hit g w d (parse_uid_range d) end) with Miss => forall src grp, ~ applies g w d src grp | Hit s => applies g w d s None | HitGroup n => applies g w d 2 (Some n) | Crash => False end) by (destruct (parse_uid_range d); exact GA). clear GA.
      destruct (match parse_uid_range d with RErr => Miss | _ => domain_hit g w d (parse_uid_range d) end) as [|src|n|]; [| | |contradiction]; (split; [exact EX'|]).
      - right. split; [reflexivity|]. intro e. rewrite IS. intros (d' & t' & i' & v' & Q & A & _). assert (d' = d) by congruence. subst d'. exact (GA' _ _ A).
      - left. exists (mkE src None (lower t) (lower i) (lower v)). split; [apply IS; exists d, t, i, v; cbn; auto 6|reflexivity].
      - left. exists (mkE 2 (Some n) (lower t) (lower i) (lower v)). split; [apply IS; exists d, t, i, v; cbn; auto 6|reflexivity]. }
    destruct (parse_uid_range d); exact KEY.
Qed.

Theorem limits_lines : forall ls p, Forall (fun l => line_text (cut l)) ls ->
  match all_lines nr g w ls p with
  | Exempt => exists l, In l ls /\ line_exempts g w (cut l)
  | Broken => False
  | Go p' => exists es, reads g w ls es /\ p' = fold_left (apply_entry nr) es p
  end.
Proof.
  induction ls as [|l ls IH]; intros p F; cbn [all_lines]; [exists []; split; [constructor|reflexivity]|]. inversion F as [|? ? LT F']; subst. pose proof (limits_line (cut l) p LT) as O. destruct (one_line nr g w (cut l) p) as [p1| |]; [|exists l; split; [left; reflexivity|exact O]|exact O].
  destruct O as (NX & O). specialize (IH p1 F'). destruct (all_lines nr g w ls p1) as [p2| |]; [|destruct IH as (l' & I & X); exists l'; split; [right; exact I|exact X]|exact IH].
  destruct IH as (es & R & ->). destruct O as [(e & E & ->)|(-> & N)]; [exists (e :: es); split; [apply reads_entry; assumption|reflexivity]|exists es; split; [apply reads_other; assumption|reflexivity]].
Qed.
Lemma reads_clean : forall ls es, reads g w ls es -> forall l, In l ls -> ~ line_exempts g w (cut l).
Proof. intros ls es R. induction R as [|l ls es X N R IH|l ls e es X E R IH]; intros k I; [destruct I| |]; destruct I as [<-|I]; auto. Qed.
Lemma line_is_unique : forall l e e', line_text l -> line_is g w l e -> line_is g w l e' -> e = e'.
Proof.
  intros l e e' LT (b & d & t & i & v & B & F & A & T & I & V) (b' & d' & t' & i' & v' & B' & F' & A' & T' & I' & V'). apply body_strip in B, B'; try exact LT. subst b b'. apply split_fields4 in F, F'. rewrite F in F'. assert (d' = d) by congruence. assert (t' = t) by congruence. assert (i' = i) by congruence. assert (v' = v) by congruence. subst d' t' i' v'.
  destruct (applies_unique _ _ _ _ _ A A') as (S0 & G0). destruct e, e'. cbn in *. congruence.
Qed.
Lemma line_src : forall l e, line_is g w l e -> 0 <= e_src e <= 4.
Proof. intros l e (b & d & t & i & v & _ & _ & A & _). remember (e_src e) as s. destruct A; lia. Qed.
Lemma reads_src : forall ls es, reads g w ls es -> Forall (fun e => 0 <= e_src e <= 4) es.
Proof. intros ls es R. induction R as [|l ls es X N R IH|l ls e es X E R IH]; auto. constructor; [eapply line_src; exact E|exact IH]. Qed.
End Lines.

(** ** What the words of an entry ask for *)
(** The resources: word, number in sys/resource.h, unit of the values. *)
Definition RESOURCES : list (string * nat * Z) :=
  [("cpu"%string, 0%nat, 60); ("fsize"%string, 1%nat, 1024); ("data"%string, 2%nat, 1024); ("stack"%string, 3%nat, 1024); ("core"%string, 4%nat, 1024); ("rss"%string, 5%nat, 1024);
   ("nproc"%string, 6%nat, 1); ("nofile"%string, 7%nat, 1); ("memlock"%string, 8%nat, 1024); ("as"%string, 9%nat, 1024); ("locks"%string, 10%nat, 1); ("sigpending"%string, 11%nat, 1);
   ("msgqueue"%string, 12%nat, 1); ("nice"%string, 13%nat, 1); ("rtprio"%string, 14%nat, 1); ("rttime"%string, 15%nat, 1)].
Definition UNLIMITED : Z := 2 ^ 64 - 1.
Definition unlimited_word (v : cstr) : Prop := v = lit "-1" \/ v = lit "-" \/ v = lit "unlimited" \/ v = lit "infinity".
(** An integer at the start of the text. *)
Definition integer (v : cstr) (n : Z) : Prop := exists neg m rest, signed 10 v neg m rest /\ n = if neg then - m else m.
Definition clamped (lo hi n : Z) : Z := Z.max lo (Z.min hi n).
(** The most files there can be: the number in the first line of /proc/sys/fs/nr_open. *)
Definition first_number (text : option cstr) (x : Z) : Prop := exists t l ls neg n rest, text = Some t /\ lines_of t = l :: ls /\ signed 10 (cut l) neg n rest /\ n <= ULONG_MAX /\ x = ulong neg n.
Definition most_files (text : option cstr) (x : Z) : Prop := first_number text x \/ (forall z, ~ first_number text z) /\ x = UNLIMITED.
(** The plain number asked for. *)
Definition asked (v : cstr) (b : Z) : Prop := unlimited_word v /\ b = UNLIMITED \/ ~ unlimited_word v /\ exists neg n rest, signed 10 v neg n rest /\ b = ulong neg n.
(** The limit asked for by the value [v]: a nice value as 20 - n; a number of units, or no limit where this is too much. *)
Definition limit_value (nr : option cstr) (name : string) (unit : Z) (v : cstr) (x : Z) : Prop :=
  if String.eqb name "nice" then exists n, integer v n /\ x = 20 - clamped (-20) 19 n
  else exists b, asked v b /\ ((b + 1) * unit <= UNLIMITED /\ x = b * unit \/ ~ (b + 1) * unit <= UNLIMITED /\ if String.eqb name "nofile" then most_files nr x else x = UNLIMITED).
(** The entry asks for the soft (or hard) limit [x] of the resource [n]. *)
Definition gives (soft : bool) (nr : option cstr) (n : nat) (e : entry) (x : Z) : Prop :=
  exists name unit, In (name, n, unit) RESOURCES /\ e_item e = lit name /\ (e_type e = lit "-" \/ e_type e = lit (if soft then "soft" else "hard")) /\
    e_src e <> 2 /\ e_src e <> 3 /\ limit_value nr name unit (e_value e) x.
(** The entry asks for a number of logins, negative for any number. *)
Definition gives_logins (e : entry) (x : Z) : Prop :=
  (e_item e = lit "maxlogins" \/ e_item e = lit "maxsyslogins" /\ e_src e <> 2 /\ e_src e <> 3) /\
  (unlimited_word (e_value e) /\ x = -1 \/ ~ unlimited_word (e_value e) /\ exists n, integer (e_value e) n /\ x = clamped INT_MIN INT_MAX n).
Definition gives_priority (e : entry) (x : Z) : Prop :=
  e_item e = lit "priority" /\ (e_type e = lit "-" \/ e_type e = lit "soft" \/ e_type e = lit "hard") /\ e_src e <> 2 /\ e_src e <> 3 /\ exists n, integer (e_value e) n /\ x = clamped INT_MIN INT_MAX n.
Definition gives_nonew (e : entry) (x : Z) : Prop := e_item e = lit "nonewprivs" /\ e_src e <> 2 /\ e_src e <> 3 /\ (e_value e = lit "1" /\ x = 1 \/ e_value e <> lit "1" /\ x = 0).
(** Which of the entries counts: the last one of the highest precedence; or just the last one. *)
Definition wins (P : entry -> Z -> Prop) (es : list entry) (src x : Z) : Prop :=
  exists a e b, es = (a ++ e :: b)%list /\ P e x /\ e_src e = src /\ (forall e' x', In e' a -> P e' x' -> src <= e_src e') /\ (forall e' x', In e' b -> P e' x' -> src < e_src e').
Definition is_last {A : Type} (P : entry -> A -> Prop) (es : list entry) (x : A) : Prop := exists a e b, es = (a ++ e :: b)%list /\ P e x /\ forall e' x', In e' b -> ~ P e' x'.
(** The value after some entries: that of the one that counts, else the one before. *)
Definition settled (P : entry -> Z -> Prop) (es : list entry) (before x : Z) : Prop := (exists src, wins P es src x) \/ (forall e y, In e es -> ~ P e y) /\ x = before.
Definition latest {A : Type} (P : entry -> A -> Prop) (es : list entry) (before x : A) : Prop := is_last P es x \/ (forall e y, In e es -> ~ P e y) /\ x = before.

Lemma index_item : forall w n, index_of w resources = Some n <-> exists name unit, In (name, n, unit) RESOURCES /\ w = lit name.
Proof.
  intros w n. unfold resources. split.
  - cbn [map index_of]. intro H. repeat match type of H with context [streq w ?x] => destruct (streq w x) eqn:?; [injection H as <-; match goal with E : streq w _ = true |- _ => apply streq_eq in E; subst w end; (eexists; eexists; split; [|reflexivity]; vm_compute; intuition reflexivity)|] end. discriminate.
  - intros (name & unit & I & ->). unfold RESOURCES in I. cbn [In] in I. repeat (destruct I as [I|I]; [injection I as <- <- <-; reflexivity|]). contradiction.
Qed.
Lemma no_limit_iff : forall v, no_limit_word v = true <-> unlimited_word v.
Proof.
  intros v. unfold no_limit_word, unlimited_word. rewrite !orb_true_iff. assert (S0 : forall a b, streq a b = true <-> a = b) by (intros a b; split; [apply streq_eq|intros ->; apply streq_refl]). rewrite !S0. tauto.
Qed.
Lemma strtol_integer : forall v n, (exists m rest, strtol v = (m, Some rest) /\ n = clamp INT_MIN INT_MAX m) <-> exists k, integer v k /\ n = clamped INT_MIN INT_MAX k.
Proof.
  assert (CL : forall k, clamp INT_MIN INT_MAX (Z.max LONG_MIN (Z.min LONG_MAX k)) = clamped INT_MIN INT_MAX k).
  { intro k. unfold clamp, clamped. change LONG_MIN with (-9223372036854775808). change LONG_MAX with 9223372036854775807. change INT_MIN with (-2147483648). change INT_MAX with 2147483647. set (z := Z.max _ _). destruct (Z.ltb_spec z (-2147483648)); [lia|]. destruct (Z.ltb_spec 2147483647 z); lia. }
  intros v n. split.
  - intros (m & rest & E & ->). apply strtol_some in E. destruct E as (neg & k & S0 & ->). exists (if neg then - k else k). split; [exists neg, k, rest; auto|]. unfold long_of. apply CL.
  - intros (k & (neg & m & rest & S0 & ->) & ->). exists (long_of neg m), rest. split; [apply strtol_some; exists neg, m; auto|]. unfold long_of. symmetry. apply CL.
Qed.
Lemma number_iff : forall v x, (match strtol v with (n, Some _) => Some (clamp INT_MIN INT_MAX n, 0) | (_, None) => None end) = Some (x, 0) <-> exists k, integer v k /\ x = clamped INT_MIN INT_MAX k.
Proof.
  intros v x. rewrite <- strtol_integer. destruct (strtol v) as [m [rest|]]; split.
  - intro Q. injection Q as <-. exists m, rest. auto.
  - intros (m' & r' & Q & ->). injection Q as -> ->. reflexivity.
  - discriminate.
  - intros (m' & r' & Q & _). discriminate.
Qed.
Lemma ulong_bound : forall neg n, 0 <= n -> 0 <= ulong neg n <= UNLIMITED.
Proof.
  intros neg n P. unfold ulong. assert (U : ULONG_MAX = UNLIMITED) by reflexivity. assert (V : 0 < UNLIMITED) by reflexivity. destruct neg; [|lia]. destruct (Z.leb_spec n ULONG_MAX); [|lia]. pose proof (Z.mod_pos_bound (- n) (2 ^ 64) ltac:(lia)). lia.
Qed.
Lemma times_meaning : forall u b, 0 < u -> 0 <= b <= UNLIMITED -> times u b = if (b + 1) * u <=? UNLIMITED then b * u else UNLIMITED.
Proof.
  intros u b U B. unfold times. change INFINITY with UNLIMITED. pose proof (Z.mul_div_le UNLIMITED u U) as D1. pose proof (Z.mul_succ_div_gt UNLIMITED u U) as D2. destruct (Z.eqb_spec b UNLIMITED) as [->|N]; cbn [negb].
  - destruct (Z.leb_spec ((UNLIMITED + 1) * u) UNLIMITED); [nia|reflexivity].
  - destruct (Z.leb_spec (UNLIMITED / u) b) as [L|L]; destruct (Z.leb_spec ((b + 1) * u) UNLIMITED) as [M|M]; try reflexivity; nia.
Qed.
Lemma value_file : forall text, match value_from_file text with Some x => first_number text x | None => forall z, ~ first_number text z end.
Proof.
  intros [t|]; [|intros z (t & l & ls & neg & n & rest & Q & _); discriminate]. unfold value_from_file. destruct (lines_of t) as [|l ls] eqn:L; [intros z (t' & l & ls & neg & n & rest & Q & Q2 & _); injection Q as <-; congruence|].
  assert (F : forall z, first_number (Some t) z -> exists neg n rest, signed 10 (cut l) neg n rest /\ n <= ULONG_MAX /\ z = ulong neg n).
  { intros z (t' & l' & ls' & neg & n & rest & Q & Q2 & S0 & B). injection Q as <-. rewrite L in Q2. injection Q2 as <- <-. exists neg, n, rest. auto. }
  destruct (strtoul 10 (cut l)) as [x [rest|]] eqn:E.
  - apply strtoul_some in E; [|exact ten]. destruct E as (neg & n & S0 & ->). rewrite (signed_range _ _ _ _ S0). pose proof (signed_nonneg _ _ _ _ _ ten S0) as P. destruct (Z.ltb_spec ULONG_MAX n) as [B|B].
    + assert (Q : ulong neg n = ULONG_MAX). { unfold ulong. destruct neg; [destruct (Z.leb_spec n ULONG_MAX); lia|lia]. } rewrite Q, Z.eqb_refl. cbn [negb orb]. intros z Z0. destruct (F z Z0) as (neg' & n' & rest' & S1 & B' & _). destruct (signed_unique _ _ _ _ _ _ _ _ ten S0 S1) as (_ & <- & _). lia.
    + rewrite orb_true_r. exists t, l, ls, neg, n, rest. auto 6.
  - destruct (strtoul_none _ _ _ ten E) as (_ & N). intros z Z0. destruct (F z Z0) as (neg & n & rest & S0 & _). exact (N _ _ _ S0).
Qed.
Lemma first_number_inj : forall t x y, first_number t x -> first_number t y -> x = y.
Proof. intros t x y (t1 & l1 & ls1 & neg1 & n1 & r1 & E1 & L1 & S1 & _ & ->) (t2 & l2 & ls2 & neg2 & n2 & r2 & E2 & L2 & S2 & _ & ->). assert (t1 = t2) by congruence. subst t2. rewrite L1 in L2. injection L2 as <- <-. destruct (signed_unique _ _ _ _ _ _ _ _ ten S1 S2) as (-> & -> & _). reflexivity. Qed.

Lemma most_files_iff : forall text x, most_files text x <-> x = match value_from_file text with Some y => y | None => UNLIMITED end.
Proof.
  intros text x. pose proof (value_file text) as V. unfold most_files. destruct (value_from_file text) as [y|].
  - split; [intros [F|(N & _)]; [exact (first_number_inj _ _ _ F V)|destruct (N y V)]|intros ->; left; exact V].
  - split; [intros [F|(_ & Q)]; [destruct (V x F)|exact Q]|intros ->; right; auto].
Qed.

(** The value of a resource line. *)
Definition read_value (nr : option cstr) (n : nat) (v : cstr) : option Z := match value_of (Res n) v with Some (iv, rv) => Some (scale nr n iv rv) | None => None end.
Lemma read_value_iff : forall nr name n unit v x, In (name, n, unit) RESOURCES -> (read_value nr n v = Some x <-> limit_value nr name unit v x).
Proof.
  intros nr name n unit v x I.
  assert (NICE_ : read_value nr 13 v = Some x <-> exists k, integer v k /\ x = 20 - clamped (-20) 19 k).
  { unfold read_value, value_of. change (13 =? NICE)%nat with true. cbn iota.
    assert (SC : forall iv rv, scale nr 13 iv rv = (let iv := if 19 <? iv then 19 else iv in let iv := if iv <? -20 then -20 else iv in 20 - iv)) by reflexivity.
    assert (CL : forall k, (let iv := if 19 <? clamped INT_MIN INT_MAX k then 19 else clamped INT_MIN INT_MAX k in let iv := if iv <? -20 then -20 else iv in 20 - iv) = 20 - clamped (-20) 19 k).
    { intro k. cbv zeta. unfold clamped. change INT_MIN with (-2147483648). change INT_MAX with 2147483647. set (z := Z.max (-2147483648) (Z.min 2147483647 k)). destruct (Z.ltb_spec 19 z); [destruct (Z.ltb_spec 19 (-20)); lia|]. destruct (Z.ltb_spec z (-20)); lia. }
    split.
    - destruct (strtol v) as [m [rest|]] eqn:E; [|discriminate]. intro Q. assert (K : exists k, integer v k /\ clamp INT_MIN INT_MAX m = clamped INT_MIN INT_MAX k) by (apply strtol_integer; exists m, rest; auto). destruct K as (k & IK & EK). exists k. split; [exact IK|]. rewrite <- CL, <- EK. rewrite SC in Q. congruence.
    - intros (k & IK & ->). assert (K : exists m rest, strtol v = (m, Some rest) /\ clamped INT_MIN INT_MAX k = clamp INT_MIN INT_MAX m) by (apply strtol_integer; exists k; auto). destruct K as (m & rest & E & EK). rewrite E, SC, <- EK, CL. reflexivity. }
  assert (PLAIN : forall n, n <> 13%nat -> forall y, (exists b, asked v b /\ y = scale nr n (if no_limit_word v then -1 else 0) b) <-> read_value nr n v = Some y).
  { intros k NK y. unfold read_value, value_of. destruct (Nat.eqb_spec k NICE); [contradiction|]. unfold asked. destruct (no_limit_word v) eqn:NL.
    - apply no_limit_iff in NL. split; [intros (b & [(_ & ->)|(Q & _)] & ->); [reflexivity|contradiction]|]. intro Q. injection Q as <-. exists UNLIMITED. split; [left; auto|reflexivity].
    - assert (NU : ~ unlimited_word v) by (rewrite <- no_limit_iff, NL; discriminate). destruct (strtoul 10 v) as [z [rest|]] eqn:E.
      + apply strtoul_some in E; [|exact ten]. destruct E as (neg & m & S0 & ->). split; [|intro Q; injection Q as <-; exists (ulong neg m); split; [right; split; [exact NU|exists neg, m, rest; auto]|reflexivity]].
        intros (b & [(Q & _)|(_ & neg' & m' & r' & S1 & ->)] & ->); [contradiction|]. destruct (signed_unique _ _ _ _ _ _ _ _ ten S0 S1) as (-> & -> & _). reflexivity.
      + destruct (strtoul_none _ _ _ ten E) as (_ & N). split; [|discriminate]. intros (b & [(Q & _)|(_ & neg' & m' & r' & S1 & _)] & _); [contradiction|]. destruct (N _ _ _ S1). }
  assert (AB : forall b, asked v b -> 0 <= b <= UNLIMITED).
  { intros b [(_ & ->)|(_ & neg & m & r & S0 & ->)]; [split; [discriminate|reflexivity]|]. apply ulong_bound. eapply signed_nonneg; [exact ten|exact S0]. }
  assert (GEN : forall k u, k <> 13%nat -> 0 < u -> (forall iv b, 0 <= b <= UNLIMITED -> scale nr k iv b = if (b + 1) * u <=? UNLIMITED then b * u else UNLIMITED) ->
     (read_value nr k v = Some x <-> exists b, asked v b /\ ((b + 1) * u <= UNLIMITED /\ x = b * u \/ ~ (b + 1) * u <= UNLIMITED /\ x = UNLIMITED))).
  { intros k u NK U SC. rewrite <- PLAIN by exact NK. split; intros (b & A & X); exists b; (split; [exact A|]).
    - rewrite SC in X by (apply AB; exact A). destruct (Z.leb_spec ((b + 1) * u) UNLIMITED); [left|right]; (split; [lia|exact X]).
    - rewrite SC by (apply AB; exact A). destruct (Z.leb_spec ((b + 1) * u) UNLIMITED); destruct X as [(L & X)|(L & X)]; (exact X || contradiction || lia). }
  assert (ONE : forall b, 0 <= b <= UNLIMITED -> b = if (b + 1) * 1 <=? UNLIMITED then b * 1 else UNLIMITED) by (intros b B; destruct (Z.leb_spec ((b + 1) * 1) UNLIMITED); lia).
  assert (FILES : read_value nr 7 v = Some x <-> exists b, asked v b /\ ((b + 1) * 1 <= UNLIMITED /\ x = b * 1 \/ ~ (b + 1) * 1 <= UNLIMITED /\ most_files nr x)).
  { rewrite <- PLAIN by discriminate. assert (SC : forall iv b, scale nr 7 iv b = if b =? UNLIMITED then match value_from_file nr with Some y => y | None => b end else b) by reflexivity.
    split; intros (b & A & X); exists b; (split; [exact A|]); pose proof (AB b A) as B.
    - rewrite SC in X. destruct (Z.eqb_spec b UNLIMITED) as [->|NB]; [right; split; [lia|apply most_files_iff; exact X]|left; split; lia].
    - rewrite SC. destruct (Z.eqb_spec b UNLIMITED) as [->|NB]; destruct X as [(L & X)|(L & X)]; try lia. apply most_files_iff in X. exact X. }
  unfold RESOURCES in I. cbn [In] in I. unfold limit_value.
  repeat (destruct I as [I|I]; [injection I as <- <- <-; cbn [String.eqb Ascii.eqb Bool.eqb];
    first [exact NICE_ | exact FILES | (apply GEN; [discriminate|lia|]; intros iv b B; first [apply (times_meaning 60 b); [lia|exact B] | apply (times_meaning 1024 b); [lia|exact B] | exact (ONE b B)])]|]).
  contradiction.
Qed.

(** ** Which entry counts *)
Section Settle.
Context {S : Type}.
Variables (P : entry -> Z -> Prop) (step : S -> entry -> S) (src val : S -> Z).
Definition keeps (s s' : S) : Prop := src s' = src s /\ val s' = val s.
Hypothesis STEP : forall s e, (exists x, P e x /\ if src s <? e_src e then keeps s (step s e) else src (step s e) = e_src e /\ val (step s e) = x) \/ (forall x, ~ P e x) /\ keeps s (step s e).
Lemma settle : forall es s, Forall (fun e => 0 <= e_src e <= 4) es -> 4 < src s ->
  wins P es (src (fold_left step es s)) (val (fold_left step es s)) \/ (forall e y, In e es -> ~ P e y) /\ keeps s (fold_left step es s).
Proof.
  intros es s F. induction es as [|e es IH] using rev_ind; intro B; [right; split; [intros ? ? []|split; reflexivity]|]. rewrite fold_left_app. cbn [fold_left]. apply Forall_app in F. destruct F as (F & E). inversion E as [|? ? BE _]; subst. clear E. specialize (IH F B). set (s1 := fold_left step es s) in *. destruct (STEP s1 e) as [(x & PE & K)|(N & (K1 & K2))].
  - left. assert (NEW : (forall e' x', In e' es -> P e' x' -> e_src e <= e_src e') -> src (step s1 e) = e_src e /\ val (step s1 e) = x -> wins P (es ++ [e]) (src (step s1 e)) (val (step s1 e))).
    { intros O (-> & ->). exists es, e, []. split; [reflexivity|]. split; [exact PE|]. split; [reflexivity|]. split; [exact O|intros ? ? []]. }
    destruct IH as [(a & e0 & b & -> & P0 & S0 & BA & BB)|(N & (K1 & K2))].
    + destruct (Z.ltb_spec (src s1) (e_src e)) as [L|L].
      * destruct K as (-> & ->). exists a, e0, (b ++ [e])%list. split; [rewrite <- app_assoc; reflexivity|]. split; [exact P0|]. split; [exact S0|]. split; [exact BA|]. intros e' x' I P'. apply in_app_or in I. destruct I as [I|[<-|[]]]; [exact (BB _ _ I P')|exact L].
      * apply NEW; [|exact K]. intros e' x' I P'. apply in_app_or in I. destruct I as [I|[<-|I]]; [specialize (BA _ _ I P'); lia|lia|specialize (BB _ _ I P'); lia].
    + rewrite K1 in K. destruct (Z.ltb_spec (src s) (e_src e)); [lia|]. apply NEW; [|exact K]. intros e' x' I P'. destruct (N _ _ I P').
  - rewrite K1, K2. destruct IH as [(a & e0 & b & -> & P0 & S0 & BA & BB)|(N0 & K)]; [left|right].
    + exists a, e0, (b ++ [e])%list. split; [rewrite <- app_assoc; reflexivity|]. split; [exact P0|]. split; [exact S0|]. split; [exact BA|]. intros e' x' I P'. apply in_app_or in I. destruct I as [I|[<-|[]]]; [exact (BB _ _ I P')|destruct (N _ P')].
    + split; [|split; [rewrite K1|rewrite K2]; apply K]. intros e' y I. apply in_app_or in I. destruct I as [I|[<-|[]]]; [exact (N0 _ _ I)|apply N].
Qed.
End Settle.
Section Last.
Context {S A : Type}.
Variables (P : entry -> A -> Prop) (step : S -> entry -> S) (val : S -> A).
Hypothesis STEP : forall s e, P e (val (step s e)) \/ (forall x, ~ P e x) /\ val (step s e) = val s.
Lemma settle_last : forall es s, latest P es (val s) (val (fold_left step es s)).
Proof.
  intros es s. induction es as [|e es IH] using rev_ind; [right; split; [intros ? ? []|reflexivity]|]. rewrite fold_left_app. cbn [fold_left]. set (s1 := fold_left step es s) in *. destruct (STEP s1 e) as [PE|(N & ->)].
  - left. exists es, e, []. split; [reflexivity|]. split; [exact PE|intros ? ? []].
  - destruct IH as [(a & e0 & b & -> & P0 & NB)|(N0 & ->)]; [left|right].
    + exists a, e0, (b ++ [e])%list. split; [rewrite <- app_assoc; reflexivity|]. split; [exact P0|]. intros e' x' I. apply in_app_or in I. destruct I as [I|[<-|[]]]; auto.
    + split; [|reflexivity]. intros e' y I. apply in_app_or in I. destruct I as [I|[<-|[]]]; auto.
Qed.
End Last.

Lemma item_cases : forall w, match item_of w with
  | Some (Res n) => exists name unit, In (name, n, unit) RESOURCES /\ w = lit name
  | Some Logins => w = lit "maxlogins" | Some Syslogins => w = lit "maxsyslogins" | Some Priority => w = lit "priority" | Some Nonewprivs => w = lit "nonewprivs"
  | None => (forall name n unit, In (name, n, unit) RESOURCES -> w <> lit name) /\ w <> lit "maxlogins" /\ w <> lit "maxsyslogins" /\ w <> lit "priority" /\ w <> lit "nonewprivs"
  end.
Proof.
  intro w. unfold item_of. destruct (index_of w resources) as [n|] eqn:I; [apply index_item; exact I|].
  destruct (streq w (lit "maxlogins")) eqn:E1; [apply streq_eq; exact E1|]. destruct (streq w (lit "maxsyslogins")) eqn:E2; [apply streq_eq; exact E2|]. destruct (streq w (lit "priority")) eqn:E3; [apply streq_eq; exact E3|]. destruct (streq w (lit "nonewprivs")) eqn:E4; [apply streq_eq; exact E4|].
  split; [|repeat split; intros ->; rewrite streq_refl in *; discriminate]. intros name n unit J ->. assert (Q : index_of (lit name) resources = Some n) by (apply index_item; eauto). congruence.
Qed.
Lemma item_res : forall name n unit, In (name, n, unit) RESOURCES -> item_of (lit name) = Some (Res n).
Proof. intros name n unit I. unfold item_of. assert (Q : index_of (lit name) resources = Some n) by (apply index_item; eauto). rewrite Q. reflexivity. Qed.
Lemma resource_word : forall name n unit, In (name, n, unit) RESOURCES -> lit name <> lit "maxlogins" /\ lit name <> lit "maxsyslogins" /\ lit name <> lit "priority" /\ lit name <> lit "nonewprivs".
Proof. intros name n unit I. unfold RESOURCES in I. cbn [In] in I. repeat (destruct I as [I|I]; [injection I as <- <- <-; repeat split; discriminate|]). contradiction. Qed.

Lemma res_type : forall n t, match type_of (Res n) t with
  | Some (soft, hard) => (soft = true <-> t = lit "-" \/ t = lit "soft") /\ (hard = true <-> t = lit "-" \/ t = lit "hard") /\ (soft || hard) = true
  | None => t <> lit "-" /\ t <> lit "soft" /\ t <> lit "hard"
  end.
Proof.
  intros n t. unfold type_of. destruct (streq t (lit "soft")) eqn:E1; [apply streq_eq in E1; subst t; (split; [|split; [|reflexivity]]); split; (auto || discriminate || intros [Q|Q]; (discriminate || auto))|].
  destruct (streq t (lit "hard")) eqn:E2; [apply streq_eq in E2; subst t; (split; [|split; [|reflexivity]]); split; (auto || discriminate || intros [Q|Q]; (discriminate || auto))|].
  destruct (streq t (lit "-")) eqn:E3; [apply streq_eq in E3; subst t; (split; [|split; [|reflexivity]]); split; auto|]. repeat split; intros ->; rewrite streq_refl in *; discriminate.
Qed.
(** What an entry does, in full. *)
Lemma put_group_keeps : forall n p, p_login (put_group n p) = p_login p /\ p_login_def (put_group n p) = p_login_def p /\ p_numsys (put_group n p) = p_numsys p /\ p_priority (put_group n p) = p_priority p /\ p_nonew (put_group n p) = p_nonew p /\ p_lims (put_group n p) = p_lims p /\ p_group (put_group n p) = Some n.
Proof. intros n p. repeat split. Qed.
Definition grouped (e : entry) (p : limits) : limits := match e_grp e with Some n => put_group n p | None => p end.
Lemma grouped_keeps : forall e p, p_login (grouped e p) = p_login p /\ p_login_def (grouped e p) = p_login_def p /\ p_numsys (grouped e p) = p_numsys p /\ p_priority (grouped e p) = p_priority p /\ p_nonew (grouped e p) = p_nonew p /\ p_lims (grouped e p) = p_lims p.
Proof. intros e p. unfold grouped. destruct (e_grp e) as [n|]; repeat split. Qed.
Lemma flag_keeps : forall it p, p_login (flag it p) = p_login p /\ p_login_def (flag it p) = p_login_def p /\ p_priority (flag it p) = p_priority p /\ p_nonew (flag it p) = p_nonew p /\ p_lims (flag it p) = p_lims p /\ p_group (flag it p) = p_group p.
Proof. intros [n| | | |] p; repeat split. Qed.
Lemma store_keeps : forall src soft hard rv n p, p_login (store src soft hard rv n p) = p_login p /\ p_login_def (store src soft hard rv n p) = p_login_def p /\ p_numsys (store src soft hard rv n p) = p_numsys p /\ p_priority (store src soft hard rv n p) = p_priority p /\ p_nonew (store src soft hard rv n p) = p_nonew p /\ p_group (store src soft hard rv n p) = p_group p.
Proof. intros src soft hard rv n p. unfold store. destruct (soft && _); repeat split. Qed.

Lemma gives_unique_item : forall soft nr n e x, gives soft nr n e x -> item_of (e_item e) = Some (Res n) /\ read_value nr n (e_value e) = Some x /\ (e_type e = lit "-" \/ e_type e = lit (if soft then "soft" else "hard")) /\ e_src e <> 2 /\ e_src e <> 3.
Proof.
  intros soft nr n e x (name & unit & I & E & T & S1 & S2 & V). split; [rewrite E; exact (item_res _ _ _ I)|]. split; [apply (read_value_iff nr name n unit _ x I); exact V|auto].
Qed.
Lemma gives_iff : forall soft nr n e x, gives soft nr n e x <-> item_of (e_item e) = Some (Res n) /\ read_value nr n (e_value e) = Some x /\ (e_type e = lit "-" \/ e_type e = lit (if soft then "soft" else "hard")) /\ e_src e <> 2 /\ e_src e <> 3.
Proof.
  intros soft nr n e x. split; [apply gives_unique_item|]. intros (I & V & T & S1 & S2). pose proof (item_cases (e_item e)) as C. rewrite I in C. destruct C as (name & unit & J & E). exists name, unit. split; [exact J|]. split; [exact E|]. split; [exact T|]. split; [exact S1|]. split; [exact S2|]. apply (read_value_iff nr name n unit _ x J). exact V.
Qed.
Lemma not_percent : forall s, (s =? DEF_ALL) || (s =? DEF_ALLGROUP) = false <-> s <> 2 /\ s <> 3.
Proof. intro s. rewrite orb_false_iff, !Z.eqb_neq. change DEF_ALL with 3. change DEF_ALLGROUP with 2. tauto. Qed.

(** What an entry does to the limits of a resource. *)
Lemma entry_lim : forall nr n p e,
  p_lims (apply_entry nr p e) n = p_lims p n /\ (forall x, ~ gives true nr n e x) /\ (forall x, ~ gives false nr n e x) \/
  exists x soft hard, (soft = true <-> gives true nr n e x) /\ (hard = true <-> gives false nr n e x) /\ (soft || hard) = true /\ (forall b y, gives b nr n e y -> y = x) /\
    p_lims (apply_entry nr p e) n = p_lims (store (e_src e) soft hard x n p) n.
Proof.
  intros nr n p e. unfold apply_entry. fold (grouped e p). destruct (grouped_keeps e p) as (_ & _ & _ & _ & _ & GL). assert (QP : forall s b h x, p_lims (store s b h x n (grouped e p)) n = p_lims (store s b h x n p) n) by (intros s b h x; unfold store; rewrite GL; destruct (b && _); [rewrite GL; reflexivity|unfold put_lim; cbn [p_lims]; rewrite !Nat.eqb_refl; reflexivity]). rewrite <- GL. set (q := grouped e p) in *. clearbody q. unfold process_limit.
  destruct (item_of (e_item e)) as [it|] eqn:IT; [|left; split; [reflexivity|]; split; intros x G; apply gives_iff in G; destruct G as (Q & _); congruence].
  destruct (flag_keeps it q) as (_ & _ & _ & _ & FL & _).
  assert (OTHER : it <> Res n -> (forall x, ~ gives true nr n e x) /\ (forall x, ~ gives false nr n e x)) by (intro D; split; intros x G; apply gives_iff in G; destruct G as (Q & _); congruence).
  assert (DEC : it = Res n \/ it <> Res n) by (destruct it as [m| | | |]; try (right; discriminate); destruct (Nat.eq_dec m n) as [->|D]; [left; reflexivity|right; congruence]).
  destruct DEC as [->|D].
  - pose proof (res_type n (e_type e)) as RT. destruct (type_of (Res n) (e_type e)) as [[soft hard]|]; [|left; cbn [flag]; split; [reflexivity|]; split; intros x G; apply gives_iff in G; destruct G as (_ & _ & T & _); tauto].
    assert (RV : read_value nr n (e_value e) = match value_of (Res n) (e_value e) with Some (iv, rv) => Some (scale nr n iv rv) | None => None end) by reflexivity.
    destruct (value_of (Res n) (e_value e)) as [[iv rv]|]; [|left; cbn [flag]; split; [reflexivity|]; split; intros x G; apply gives_iff in G; destruct G as (_ & V & _); congruence].
    destruct ((e_src e =? DEF_ALL) || (e_src e =? DEF_ALLGROUP)) eqn:PC; cbn [andb negb].
    + left. split; [reflexivity|]. split; intros x G; apply gives_iff in G; destruct G as (_ & _ & _ & S1 & S2); assert (Z : (e_src e =? DEF_ALL) || (e_src e =? DEF_ALLGROUP) = false) by (apply not_percent; auto); congruence.
    + apply not_percent in PC. right. exists (scale nr n iv rv), soft, hard. destruct RT as (RS & RH & SH). split; [rewrite gives_iff, RS; tauto|]. split; [rewrite gives_iff, RH; tauto|]. split; [exact SH|]. split; [intros b y G; apply gives_iff in G; destruct G as (_ & V & _); congruence|apply QP].
  - left. split; [|apply OTHER; exact D]. destruct (type_of it (e_type e)) as [[soft hard]|]; [|rewrite FL; reflexivity]. destruct (value_of it (e_value e)) as [[iv rv]|]; [|rewrite FL; reflexivity]. destruct (_ && _); [rewrite FL; reflexivity|].
    destruct it as [m| | | |]; try reflexivity; [|destruct (_ <? _); reflexivity|destruct (_ <? _); reflexivity]. unfold store. destruct (soft && _); [reflexivity|]. unfold put_lim. cbn [p_lims flag]. destruct (Nat.eqb_spec n m); [subst m; contradiction|reflexivity].
Qed.

Lemma store_soft : forall src soft hard x n p, l_soft_src (p_lims (store src soft hard x n p) n) = (if soft then if l_soft_src (p_lims p n) <? src then l_soft_src (p_lims p n) else src else l_soft_src (p_lims p n)) /\
  l_cur (p_lims (store src soft hard x n p) n) = (if soft then if l_soft_src (p_lims p n) <? src then l_cur (p_lims p n) else x else l_cur (p_lims p n)) /\ l_supported (p_lims (store src soft hard x n p) n) = l_supported (p_lims p n).
Proof. intros. unfold store. destruct soft; cbn [andb]; [destruct (l_soft_src (p_lims p n) <? src); [auto|]|]; unfold put_lim; cbn [p_lims]; rewrite Nat.eqb_refl; (destruct hard; [|auto]); cbn [l_hard_src]; destruct (l_hard_src (p_lims p n) <? src); auto. Qed.
Lemma store_hard : forall src soft hard x n p, (soft = true -> l_soft_src (p_lims p n) < src -> l_hard_src (p_lims p n) < src) ->
  l_hard_src (p_lims (store src soft hard x n p) n) = (if hard then if l_hard_src (p_lims p n) <? src then l_hard_src (p_lims p n) else src else l_hard_src (p_lims p n)) /\
  l_max (p_lims (store src soft hard x n p) n) = (if hard then if l_hard_src (p_lims p n) <? src then l_max (p_lims p n) else x else l_max (p_lims p n)).
Proof.
  intros src soft hard x n p H. unfold store. destruct soft; cbn [andb].
  - destruct (Z.ltb_spec (l_soft_src (p_lims p n)) src) as [L|L].
    + destruct hard; [|auto]. destruct (Z.ltb_spec (l_hard_src (p_lims p n)) src) as [M|M]; [auto|]. specialize (H eq_refl L). lia.
    + unfold put_lim. cbn [p_lims]. rewrite Nat.eqb_refl. destruct hard; [|auto]. cbn [l_hard_src]. destruct (l_hard_src (p_lims p n) <? src); auto.
  - unfold put_lim. cbn [p_lims]. rewrite Nat.eqb_refl. destruct hard; [|auto]. destruct (l_hard_src (p_lims p n) <? src); auto.
Qed.
Lemma supported_kept : forall nr n es p, l_supported (p_lims (fold_left (apply_entry nr) es p) n) = l_supported (p_lims p n).
Proof.
  intros nr n es. induction es as [|e es IH]; intro p; [reflexivity|]. cbn [fold_left]. rewrite IH. destruct (entry_lim nr n p e) as [(-> & _)|(x & soft & hard & _ & _ & _ & _ & ->)]; [reflexivity|]. apply store_soft.
Qed.

(** The soft limit: of the entries that give one, the last of the highest precedence counts. *)
Theorem limits_soft : forall nr n es p, Forall (fun e => 0 <= e_src e <= 4) es -> 4 < l_soft_src (p_lims p n) ->
  let l := p_lims (fold_left (apply_entry nr) es p) n in
  wins (gives true nr n) es (l_soft_src l) (l_cur l) \/ (forall e y, In e es -> ~ gives true nr n e y) /\ l_soft_src l = l_soft_src (p_lims p n) /\ l_cur l = l_cur (p_lims p n).
Proof.
  intros nr n es p F B. apply (settle (gives true nr n) (apply_entry nr) (fun q => l_soft_src (p_lims q n)) (fun q => l_cur (p_lims q n))); [|exact F|exact B]. clear es p F B. intros p e. unfold keeps.
  destruct (entry_lim nr n p e) as [(-> & N & _)|(x & soft & hard & GS & _ & _ & U & ->)]; [right; auto|]. destruct (store_soft (e_src e) soft hard x n p) as (-> & -> & _). destruct soft.
  - left. exists x. split; [apply GS; reflexivity|]. destruct (l_soft_src (p_lims p n) <? e_src e); auto.
  - right. split; [|auto]. intros y G. assert (y = x) by (apply (U true); exact G). subst y. apply GS in G. discriminate.
Qed.

(** Entries with a dash after entries for the soft limit alone of a higher precedence. *)
Definition unmixed (nr : option cstr) (n : nat) (es : list entry) : Prop :=
  forall a e b e0 x x0, es = (a ++ e :: b)%list -> In e0 a -> gives true nr n e0 x0 -> gives true nr n e x -> gives false nr n e x -> e_src e0 < e_src e -> e_type e0 = lit "-".
(** Likewise the hard limit, unless an entry with a dash comes after one that gives a soft limit alone and is of a higher precedence. *)
Theorem limits_hard_partial : forall nr n es p, Forall (fun e => 0 <= e_src e <= 4) es -> 4 < l_soft_src (p_lims p n) -> 4 < l_hard_src (p_lims p n) -> unmixed nr n es ->
  let l := p_lims (fold_left (apply_entry nr) es p) n in
  wins (gives false nr n) es (l_hard_src l) (l_max l) \/ (forall e y, In e es -> ~ gives false nr n e y) /\ l_hard_src l = l_hard_src (p_lims p n) /\ l_max l = l_max (p_lims p n).
Proof.
  intros nr n es p F B1 B2. induction es as [|e es IH] using rev_ind; intro UM; cbn zeta; [right; split; [intros ? ? []|split; reflexivity]|].
  assert (UM' : unmixed nr n es) by (intros a e1 b e0 x x0 Q; apply (UM a e1 (b ++ [e])%list); rewrite Q, <- app_assoc; reflexivity).
  apply Forall_app in F. destruct F as (F & E). specialize (IH F UM'). cbn zeta in IH. pose proof (limits_soft nr n es p F B1) as SL. cbn zeta in SL. rewrite fold_left_app. cbn [fold_left]. set (q := fold_left (apply_entry nr) es p) in *. clearbody q. inversion E as [|? ? BE _]; subst. clear E.
  assert (KEEP : (forall y, ~ gives false nr n e y) -> l_hard_src (p_lims (apply_entry nr q e) n) = l_hard_src (p_lims q n) /\ l_max (p_lims (apply_entry nr q e) n) = l_max (p_lims q n) ->
     wins (gives false nr n) (es ++ [e]) (l_hard_src (p_lims (apply_entry nr q e) n)) (l_max (p_lims (apply_entry nr q e) n)) \/ (forall e' y, In e' (es ++ [e]) -> ~ gives false nr n e' y) /\ l_hard_src (p_lims (apply_entry nr q e) n) = l_hard_src (p_lims p n) /\ l_max (p_lims (apply_entry nr q e) n) = l_max (p_lims p n)).
  { intros N (-> & ->). destruct IH as [(a & e0 & b & -> & P0 & S0 & BA & BB)|(N0 & K)]; [left|right].
    - exists a, e0, (b ++ [e])%list. split; [rewrite <- app_assoc; reflexivity|]. split; [exact P0|]. split; [exact S0|]. split; [exact BA|]. intros e' x' I P'. apply in_app_or in I. destruct I as [I|[<-|[]]]; [exact (BB _ _ I P')|destruct (N _ P')].
    - split; [|exact K]. intros e' y I. apply in_app_or in I. destruct I as [I|[<-|[]]]; [exact (N0 _ _ I)|apply N]. }
  destruct (entry_lim nr n q e) as [(Q & _ & N)|(x & soft & hard & GS & GH & SH & U & Q)]; [apply KEEP; [exact N|rewrite Q; auto]|].
  destruct hard.
  2:{ apply KEEP; [intros y G; assert (y = x) by (apply (U false); exact G); subst y; apply GH in G; discriminate|]. rewrite Q. unfold store. destruct (soft && _); [auto|]. unfold put_lim. cbn [p_lims]. rewrite Nat.eqb_refl. destruct soft; auto. }
  assert (GX : gives false nr n e x) by (apply GH; reflexivity).
  assert (OK : soft = true -> l_soft_src (p_lims q n) < e_src e -> l_hard_src (p_lims q n) < e_src e).
  { intros ST L. destruct SL as [(a & e0 & b & -> & P0 & S0 & _)|(_ & K1 & _)]; [|lia].
    assert (T : e_type e0 = lit "-") by (refine (UM (a ++ e0 :: b)%list e [] e0 x (l_cur (p_lims q n)) eq_refl _ P0 _ GX _); [apply in_or_app; right; left; reflexivity|apply GS; exact ST|lia]).
    assert (G0 : gives false nr n e0 (l_cur (p_lims q n))) by (apply gives_iff in P0; apply gives_iff; tauto).
    destruct IH as [(a' & e1 & b' & EQ & _ & S1 & BA & BB)|(N0 & _)]; [|exfalso; apply (N0 e0 _ (in_elt _ _ _) G0)].
    assert (I0 : In e0 (a' ++ e1 :: b')) by (rewrite <- EQ; apply in_elt). apply in_app_or in I0. destruct I0 as [I0|[->|I0]]; [specialize (BA _ _ I0 G0); lia|lia|specialize (BB _ _ I0 G0); lia]. }
  rewrite Q. destruct (store_hard (e_src e) soft true x n q OK) as (-> & ->). left.
  assert (NEW : (forall e' x', In e' es -> gives false nr n e' x' -> e_src e <= e_src e') -> wins (gives false nr n) (es ++ [e]) (e_src e) x) by (intro O; exists es, e, []; split; [reflexivity|]; split; [exact GX|]; split; [reflexivity|]; split; [exact O|intros ? ? []]).
  destruct IH as [(a & e0 & b & Q0 & P0 & S0 & BA & BB)|(N0 & K1 & K2)].
  - destruct (Z.ltb_spec (l_hard_src (p_lims q n)) (e_src e)) as [L|L].
    + exists a, e0, (b ++ [e])%list. split; [rewrite Q0, <- app_assoc; reflexivity|]. split; [exact P0|]. split; [exact S0|]. split; [exact BA|]. intros e' x' I P'. apply in_app_or in I. destruct I as [I|[<-|[]]]; [exact (BB _ _ I P')|exact L].
    + apply NEW. intros e' x' I P'. rewrite Q0 in I. apply in_app_or in I. destruct I as [I|[<-|I]]; [specialize (BA _ _ I P'); lia|lia|specialize (BB _ _ I P'); lia].
  - rewrite K1, K2. destruct (Z.ltb_spec (l_hard_src (p_lims p n)) (e_src e)); [lia|]. apply NEW. intros e' x' I P'. destruct (N0 _ _ I P').
Qed.

(** What an entry does to the rest. *)
Lemma process_rest : forall nr p e, let q := apply_entry nr p e in
  ((exists x, gives_logins e x /\ if p_login_def p <? e_src e then p_login_def q = p_login_def p /\ p_login q = p_login p else p_login_def q = e_src e /\ p_login q = x) \/ (forall x, ~ gives_logins e x) /\ p_login_def q = p_login_def p /\ p_login q = p_login p) /\
  (gives_priority e (p_priority q) \/ (forall x, ~ gives_priority e x) /\ p_priority q = p_priority p) /\
  (gives_nonew e (p_nonew q) \/ (forall x, ~ gives_nonew e x) /\ p_nonew q = p_nonew p) /\
  (p_numsys q = if streq (e_item e) (lit "maxlogins") then false else if streq (e_item e) (lit "maxsyslogins") then true else p_numsys p) /\
  (p_group q = match e_grp e with Some n => Some n | None => p_group p end).
Proof.
  intros nr p e. cbn zeta. unfold apply_entry. fold (grouped e p). destruct (grouped_keeps e p) as (G1 & G2 & G3 & G4 & G5 & _). assert (G6 : p_group (grouped e p) = match e_grp e with Some n => Some n | None => p_group p end) by (unfold grouped; destruct (e_grp e); reflexivity). rewrite <- G6, <- G1, <- G2, <- G3, <- G4, <- G5. set (q := grouped e p). clearbody q. clear G1 G2 G3 G4 G5 G6.
  unfold process_limit. pose proof (item_cases (e_item e)) as IC. destruct (item_of (e_item e)) as [it|].
  2:{ destruct IC as (_ & N1 & N2 & N3 & N4). split; [right; split; [intros x ([Q|(Q & _)] & _); contradiction|auto]|]. split; [right; split; [intros x (Q & _); contradiction|auto]|]. split; [right; split; [intros x (Q & _); contradiction|auto]|]. split; [|reflexivity].
      destruct (streq (e_item e) (lit "maxlogins")) eqn:E; [apply streq_eq in E; contradiction|]. destruct (streq (e_item e) (lit "maxsyslogins")) eqn:E2; [apply streq_eq in E2; contradiction|reflexivity]. }
  assert (NUM : forall r, p_numsys r = p_numsys (flag it q) -> p_numsys r = if streq (e_item e) (lit "maxlogins") then false else if streq (e_item e) (lit "maxsyslogins") then true else p_numsys q).
  { intros r ->. destruct it as [n| | | |]; cbn [flag]; cbn [p_numsys]; try (rewrite IC; reflexivity). destruct IC as (name & unit & I & ->). destruct (resource_word _ _ _ I) as (N1 & N2 & _). destruct (streq (lit name) (lit "maxlogins")) eqn:E; [apply streq_eq in E; contradiction|]. destruct (streq (lit name) (lit "maxsyslogins")) eqn:E2; [apply streq_eq in E2; contradiction|reflexivity]. }
  destruct (flag_keeps it q) as (K1 & K2 & K3 & K4 & _ & K6).
  destruct it as [n| | | |].
  - (* a resource *)
    destruct IC as (name & unit & I & IC). destruct (resource_word _ _ _ I) as (N1 & N2 & N3 & N4).
    assert (GEN : forall r, p_login r = p_login q -> p_login_def r = p_login_def q -> p_numsys r = p_numsys q -> p_priority r = p_priority q -> p_nonew r = p_nonew q -> p_group r = p_group q ->
       ((exists x, gives_logins e x /\ if p_login_def q <? e_src e then p_login_def r = p_login_def q /\ p_login r = p_login q else p_login_def r = e_src e /\ p_login r = x) \/ (forall x, ~ gives_logins e x) /\ p_login_def r = p_login_def q /\ p_login r = p_login q) /\
       (gives_priority e (p_priority r) \/ (forall x, ~ gives_priority e x) /\ p_priority r = p_priority q) /\ (gives_nonew e (p_nonew r) \/ (forall x, ~ gives_nonew e x) /\ p_nonew r = p_nonew q) /\
       (p_numsys r = if streq (e_item e) (lit "maxlogins") then false else if streq (e_item e) (lit "maxsyslogins") then true else p_numsys q) /\ (p_group r = p_group q)).
    { intros r R1 R2 R3 R4 R5 R6. split; [right; split; [intros x ([Q|(Q & _)] & _); congruence|auto]|]. split; [right; split; [intros x (Q & _); congruence|auto]|]. split; [right; split; [intros x (Q & _); congruence|auto]|]. split; [apply NUM; exact R3|exact R6]. }
    cbn [flag]. destruct (type_of (Res n) (e_type e)) as [[soft hard]|]; [|apply GEN; reflexivity]. destruct (value_of (Res n) (e_value e)) as [[iv rv]|]; [|apply GEN; reflexivity]. destruct (_ && _); [apply GEN; reflexivity|]. destruct (store_keeps (e_src e) soft hard (scale nr n iv rv) n q) as (R1 & R2 & R3 & R4 & R5 & R6). apply GEN; assumption.
  - (* maxlogins *)
    assert (NP : forall x, ~ gives_priority e x) by (intros x (Q & _); rewrite IC in Q; discriminate). assert (NN : forall x, ~ gives_nonew e x) by (intros x (Q & _); rewrite IC in Q; discriminate).
    assert (TY : exists t, type_of Logins (e_type e) = Some t) by (unfold type_of; repeat match goal with |- context [if ?b then _ else _] => destruct b end; eexists; reflexivity). destruct TY as ([soft hard] & ->).
    assert (VA : match value_of Logins (e_value e) with Some (iv, _) => gives_logins e iv | None => forall x, ~ gives_logins e x end).
    { unfold value_of. destruct (no_limit_word (e_value e)) eqn:NL; [apply no_limit_iff in NL; split; [left; exact IC|left; auto]|]. assert (NU : ~ unlimited_word (e_value e)) by (rewrite <- no_limit_iff, NL; discriminate). pose proof (number_iff (e_value e)) as NI. destruct (strtol (e_value e)) as [m [rest|]].
      - split; [left; exact IC|]. right. split; [exact NU|]. apply NI. reflexivity.
      - intros x (_ & [(Q & _)|(_ & Q)]); [contradiction|]. apply NI in Q. discriminate. }
    rewrite andb_false_r. destruct (value_of Logins (e_value e)) as [[iv rv]|].
    + cbn [flag p_login_def]. destruct (p_login_def q <? e_src e) eqn:L; (split; [left; exists iv; split; [exact VA|rewrite ?L; auto]|]); (split; [right; auto|]); (split; [right; auto|]); (split; [apply NUM; reflexivity|reflexivity]).
    + split; [right; auto|]. split; [right; auto|]. split; [right; auto|]. split; [apply NUM; reflexivity|reflexivity].
  - (* maxsyslogins *)
    assert (NP : forall x, ~ gives_priority e x) by (intros x (Q & _); rewrite IC in Q; discriminate). assert (NN : forall x, ~ gives_nonew e x) by (intros x (Q & _); rewrite IC in Q; discriminate).
    assert (TY : exists t, type_of Syslogins (e_type e) = Some t) by (unfold type_of; repeat match goal with |- context [if ?b then _ else _] => destruct b end; eexists; reflexivity). destruct TY as ([soft hard] & ->).
    assert (VA : e_src e <> 2 /\ e_src e <> 3 -> match value_of Syslogins (e_value e) with Some (iv, _) => gives_logins e iv | None => forall x, ~ gives_logins e x end).
    { intro SR. unfold value_of. destruct (no_limit_word (e_value e)) eqn:NL; [apply no_limit_iff in NL; split; [right; auto|left; auto]|]. assert (NU : ~ unlimited_word (e_value e)) by (rewrite <- no_limit_iff, NL; discriminate). pose proof (number_iff (e_value e)) as NI. destruct (strtol (e_value e)) as [m [rest|]].
      - split; [right; auto|]. right. split; [exact NU|]. apply NI. reflexivity.
      - intros x (_ & [(Q & _)|(_ & Q)]); [contradiction|]. apply NI in Q. discriminate. }
    destruct ((e_src e =? DEF_ALL) || (e_src e =? DEF_ALLGROUP)) eqn:PC.
    + assert (NL : forall x, ~ gives_logins e x). { intros x ([Q|(_ & SR)] & _); [rewrite IC in Q; discriminate|]. apply not_percent in SR. congruence. }
      destruct (value_of Syslogins (e_value e)) as [[iv rv]|]; cbn [andb negb]; (split; [right; auto|]); (split; [right; auto|]); (split; [right; auto|]); (split; [apply NUM; reflexivity|reflexivity]).
    + apply not_percent in PC. specialize (VA PC). destruct (value_of Syslogins (e_value e)) as [[iv rv]|]; cbn [andb].
      * cbn [flag p_login_def]. destruct (p_login_def q <? e_src e) eqn:L; (split; [left; exists iv; split; [exact VA|rewrite ?L; auto]|]); (split; [right; auto|]); (split; [right; auto|]); (split; [apply NUM; reflexivity|reflexivity]).
      * split; [right; auto|]. split; [right; auto|]. split; [right; auto|]. split; [apply NUM; reflexivity|reflexivity].
  - (* priority *)
    assert (NL : forall x, ~ gives_logins e x) by (intros x ([Q|(Q & _)] & _); rewrite IC in Q; discriminate). assert (NN : forall x, ~ gives_nonew e x) by (intros x (Q & _); rewrite IC in Q; discriminate). cbn [flag].
    split; [right; split; [exact NL|]; destruct (type_of _ _) as [[? ?]|]; [|auto]; destruct (value_of _ _) as [[? ?]|]; [|auto]; destruct (_ && _); auto|].
    split; [|split; [right; split; [exact NN|]; destruct (type_of _ _) as [[? ?]|]; [|auto]; destruct (value_of _ _) as [[? ?]|]; [|auto]; destruct (_ && _); auto|split; [apply NUM|]; destruct (type_of _ _) as [[? ?]|]; try reflexivity; destruct (value_of _ _) as [[? ?]|]; try reflexivity; destruct (_ && _); reflexivity]].
    pose proof (res_type 0 (e_type e)) as RT. change (type_of (Res 0) (e_type e)) with (type_of Priority (e_type e)) in RT. destruct (type_of Priority (e_type e)) as [[soft hard]|].
    2:{ right. split; [|reflexivity]. intros x (_ & T & _). tauto. }
    unfold value_of. pose proof (number_iff (e_value e)) as NI. destruct (strtol (e_value e)) as [m [rest|]].
    2:{ right. split; [|reflexivity]. intros x (_ & _ & _ & _ & Q). apply NI in Q. discriminate. }
    destruct ((e_src e =? DEF_ALL) || (e_src e =? DEF_ALLGROUP)) eqn:PC; cbn [andb negb].
    + right. split; [|reflexivity]. intros x (_ & _ & S1 & S2 & _). assert (Z : (e_src e =? DEF_ALL) || (e_src e =? DEF_ALLGROUP) = false) by (apply not_percent; auto). congruence.
    + apply not_percent in PC. left. cbn [p_priority]. split; [exact IC|]. split; [destruct RT as (RS & RH & SH); destruct soft; [destruct (proj1 RS eq_refl); tauto|destruct hard; [destruct (proj1 RH eq_refl); tauto|discriminate]]|]. split; [apply PC|]. split; [apply PC|]. apply NI. reflexivity.
  - (* nonewprivs *)
    assert (NL : forall x, ~ gives_logins e x) by (intros x ([Q|(Q & _)] & _); rewrite IC in Q; discriminate). assert (NP : forall x, ~ gives_priority e x) by (intros x (Q & _); rewrite IC in Q; discriminate). cbn [flag].
    assert (TY : exists t, type_of Nonewprivs (e_type e) = Some t) by (unfold type_of; repeat match goal with |- context [if ?b then _ else _] => destruct b end; eexists; reflexivity). destruct TY as ([soft hard] & ->).
    assert (VA : exists iv, value_of Nonewprivs (e_value e) = Some (iv, 0) /\ (e_value e = lit "1" /\ iv = 1 \/ e_value e <> lit "1" /\ iv = 0)).
    { unfold value_of. destruct (streq (e_value e) (lit "0")) eqn:E0; [apply streq_eq in E0; exists 0; split; [reflexivity|]; right; rewrite E0; split; [discriminate|reflexivity]|]. destruct (streq (e_value e) (lit "1")) eqn:E1; [apply streq_eq in E1; exists 1; auto|]. exists 0. split; [reflexivity|]. right. split; [intros Q; rewrite Q, streq_refl in E1; discriminate|reflexivity]. }
    destruct VA as (iv & -> & V). destruct ((e_src e =? DEF_ALL) || (e_src e =? DEF_ALLGROUP)) eqn:PC; cbn [andb negb].
    + split; [right; auto|]. split; [right; auto|]. split; [|split; [apply NUM; reflexivity|reflexivity]]. right. split; [|reflexivity]. intros x (_ & S1 & S2 & _). assert (Z : (e_src e =? DEF_ALL) || (e_src e =? DEF_ALLGROUP) = false) by (apply not_percent; auto). congruence.
    + apply not_percent in PC. split; [right; auto|]. split; [right; auto|]. split; [|split; [apply NUM; reflexivity|reflexivity]]. left. cbn [p_nonew]. split; [exact IC|]. split; [apply PC|]. split; [apply PC|exact V].
Qed.

Theorem limits_logins : forall nr es p, Forall (fun e => 0 <= e_src e <= 4) es -> 4 < p_login_def p ->
  let q := fold_left (apply_entry nr) es p in
  wins gives_logins es (p_login_def q) (p_login q) \/ (forall e y, In e es -> ~ gives_logins e y) /\ p_login_def q = p_login_def p /\ p_login q = p_login p.
Proof. intros nr es p F B. apply (settle gives_logins (apply_entry nr) p_login_def p_login); [|exact F|exact B]. intros q e. destruct (process_rest nr q e) as (H & _). exact H. Qed.
(** The priority and the flag for no new privileges: the last entry counts, whatever its precedence. *)
Theorem priority_last : forall nr es p, latest gives_priority es (p_priority p) (p_priority (fold_left (apply_entry nr) es p)).
Proof. intros nr es p. apply settle_last. intros q e. apply (process_rest nr q e). Qed.
Theorem nonew_last : forall nr es p, latest gives_nonew es (p_nonew p) (p_nonew (fold_left (apply_entry nr) es p)).
Proof. intros nr es p. apply settle_last. intros q e. apply (process_rest nr q e). Qed.
(** Whether all logins are counted: as the last entry for logins says, taken or not. *)
Definition says_all (e : entry) (b : bool) : Prop := e_item e = lit (if b then "maxsyslogins" else "maxlogins").
Theorem numsys_last : forall nr es p, latest says_all es (p_numsys p) (p_numsys (fold_left (apply_entry nr) es p)).
Proof.
  intros nr es p. apply settle_last. intros q e. destruct (process_rest nr q e) as (_ & _ & _ & -> & _). unfold says_all. destruct (streq (e_item e) (lit "maxlogins")) eqn:E1; [apply streq_eq in E1; left; exact E1|]. destruct (streq (e_item e) (lit "maxsyslogins")) eqn:E2; [apply streq_eq in E2; left; exact E2|]. right. split; [|reflexivity]. intros [|] Q; rewrite Q, streq_refl in *; discriminate.
Qed.
(** The group counted together: that of the last entry with one, taken or not. *)
Theorem group_last : forall nr es p, latest (fun e g => e_grp e = Some g) es (match p_group p with Some g => g | None => [] end) (match p_group (fold_left (apply_entry nr) es p) with Some g => g | None => [] end).
Proof. intros nr es p. apply (settle_last (fun e g => e_grp e = Some g) (apply_entry nr) (fun q => match p_group q with Some g => g | None => [] end)). intros q e. destruct (process_rest nr q e) as (_ & _ & _ & _ & ->). destruct (e_grp e) as [g|]; [left; reflexivity|right; split; [discriminate|reflexivity]]. Qed.

(** ** The number of logins *)
(** Which utmp entries count for the login limit: all of user processes with a name if every login counts, else those of living processes of the user (an
    entry for the user, a group or everyone), of the members of a group, or of anyone. *)
Definition counted (in_group : cstr -> cstr -> bool) (alive : Z -> bool) (name : cstr) (all : bool) (src : Z) (grp : option cstr) (u : login) : Prop :=
  ut_user_process u = true /\ cut (ut_user u) <> [] /\
  (all = true \/ all = false /\ alive (ut_pid u) = true /\
     (src = 0 \/ src = 1 \/ src = 4 -> cut (ut_user u) = name) /\ (src = 2 -> match grp with Some g => in_group (cut (ut_user u)) g = true | None => True end)).
Inductive how_many (P : login -> Prop) : list login -> Z -> Prop :=
| many_none : how_many P [] 0
| many_one : forall u us n, P u -> how_many P us n -> how_many P (u :: us) (n + 1)
| many_skip : forall u us n, ~ P u -> how_many P us n -> how_many P (u :: us) n.

Lemma how_many_nonneg : forall P us n, how_many P us n -> 0 <= n.
Proof. intros P us n H. induction H; lia. Qed.
Lemma count_spec : forall ig alive name limit p us n c, how_many (counted ig alive name (p_numsys p) (p_login_def p) (p_group p)) us n ->
  (limit < count_logins ig alive name limit p us c <-> limit < c + n).
Proof.
  intros ig alive name limit p us n c H. revert c. induction H as [|u us n C H IH|u us n C H IH]; intro c.
  - cbn [count_logins]. lia.
  - pose proof (how_many_nonneg _ _ _ H) as P0. destruct C as (C1 & C2 & C3). cbn [count_logins]. rewrite C1. cbn [negb].
    assert (NX : limit < (if limit <? c + 1 then c + 1 else count_logins ig alive name limit p us (c + 1)) <-> limit < c + (n + 1)) by (destruct (Z.ltb_spec limit (c + 1)) as [L|L]; [lia|rewrite IH; lia]).
    destruct (cut (ut_user u)) as [|a0 l0] eqn:EU; [contradiction|]. destruct (p_numsys p); [exact NX|]. destruct C3 as [C3|(_ & AL & ON & IG)]; [discriminate|].
    change DEF_USER with 0. change DEF_GROUP with 1. change DEF_DEFAULT with 4. change DEF_ALLGROUP with 2. rewrite AL. cbn [negb].
    destruct ((p_login_def p =? 0) || (p_login_def p =? 1) || (p_login_def p =? 4)) eqn:D.
    + rewrite !orb_true_iff, !Z.eqb_eq in D. rewrite ON by tauto. rewrite streq_refl. cbn [negb andb]. destruct (Z.eqb_spec (p_login_def p) 2); [lia|exact NX].
    + cbn [andb]. destruct (Z.eqb_spec (p_login_def p) 2) as [E|E]; cbn [andb]; [|exact NX]. specialize (IG E). destruct (p_group p); [rewrite IG|]; exact NX.
  - cbn [count_logins]. assert (SK : limit < count_logins ig alive name limit p us c <-> limit < c + n) by apply IH. destruct (ut_user_process u) eqn:C1; cbn [negb]; [|exact SK]. destruct (cut (ut_user u)) as [|a0 l0] eqn:EU; [exact SK|]. unfold counted in C. rewrite C1, EU in C.
    destruct (p_numsys p); [exfalso; apply C; split; [reflexivity|]; split; [discriminate|left; reflexivity]|].
    change DEF_USER with 0. change DEF_GROUP with 1. change DEF_DEFAULT with 4. change DEF_ALLGROUP with 2.
    destruct (((p_login_def p =? 0) || (p_login_def p =? 1) || (p_login_def p =? 4)) && negb (streq name (a0 :: l0))) eqn:D; [exact SK|]. destruct ((p_login_def p =? 2) && match p_group p with Some g => negb (ig (a0 :: l0) g) | None => false end) eqn:E; [exact SK|]. destruct (alive (ut_pid u)) eqn:AL; cbn [negb]; [|exact SK].
    exfalso. apply C. split; [reflexivity|]. split; [discriminate|]. right. split; [reflexivity|]. split; [reflexivity|]. split.
    + intro Q. apply andb_false_iff in D. destruct D as [D|D]; [rewrite !orb_false_iff, !Z.eqb_neq in D; lia|]. apply negb_false_iff, streq_eq in D. congruence.
    + intro Q. apply andb_false_iff in E. destruct E as [E|E]; [apply Z.eqb_neq in E; lia|]. destruct (p_group p) as [g|]; [apply negb_false_iff in E; exact E|exact I].
Qed.
(** The login is one too many: no logins are allowed, or this one and those counted are more than the limit. *)
Definition too_many (ig : cstr -> cstr -> bool) (alive : Z -> bool) (early : bool) (us : list login) (w : who) (limit src : Z) (all : bool) (grp : option cstr) : Prop :=
  w_uid w <> 0 /\ 0 <= limit /\ (limit = 0 \/ exists n, how_many (counted ig alive (w_name w) all src grp) us n /\ limit < n + (if early then 0 else 1)).
Lemma counted_dec : forall ig alive name all src grp u, counted ig alive name all src grp u \/ ~ counted ig alive name all src grp u.
Proof.
  intros ig alive name all src grp u. unfold counted. destruct (ut_user_process u); [|right; intros (Q & _); discriminate]. destruct (cut (ut_user u)) as [|c l]; [right; intros (_ & Q & _); contradiction|].
  destruct all; [left; split; [reflexivity|]; split; [discriminate|auto]|]. destruct (alive (ut_pid u)); [|right; intros (_ & _ & [Q|(_ & Q & _)]); discriminate].
  assert (D1 : (src = 0 \/ src = 1 \/ src = 4 -> c :: l = name) \/ ~ (src = 0 \/ src = 1 \/ src = 4 -> c :: l = name)).
  { destruct (streq (c :: l) name) eqn:E; [apply streq_eq in E; left; auto|]. assert (N : c :: l <> name) by (intro Q; rewrite Q, streq_refl in E; discriminate). destruct (Z.eq_dec src 0); [right; tauto|]. destruct (Z.eq_dec src 1); [right; tauto|]. destruct (Z.eq_dec src 4); [right; tauto|]. left. intros [Q|[Q|Q]]; contradiction. }
  assert (D2 : (src = 2 -> match grp with Some g => ig (c :: l) g = true | None => True end) \/ ~ (src = 2 -> match grp with Some g => ig (c :: l) g = true | None => True end)).
  { destruct (Z.eq_dec src 2); [|left; contradiction]. destruct grp as [g|]; [|left; auto]. destruct (ig (c :: l) g); [left; auto|right; intro Q; specialize (Q e); discriminate]. }
  destruct D1 as [D1|D1]; [|right; intros (_ & _ & [Q|(_ & _ & Q & _)]); [discriminate|contradiction]]. destruct D2 as [D2|D2]; [|right; intros (_ & _ & [Q|(_ & _ & _ & Q)]); [discriminate|contradiction]].
  left. split; [reflexivity|]. split; [discriminate|]. right. auto.
Qed.
Lemma how_many_total : forall ig alive name all src grp us, exists n, how_many (counted ig alive name all src grp) us n.
Proof.
  intros ig alive name all src grp us. induction us as [|u us (n & IH)]; [exists 0; constructor|]. destruct (counted_dec ig alive name all src grp u); [exists (n + 1); apply many_one; assumption|exists n; apply many_skip; assumption].
Qed.
(** Whether the session is refused for too many logins. *)
Theorem logins_refused : forall y early w p, snd (setup_limits y early w p) = true <-> too_many (g_nam_nam (y_groups y)) (y_alive y) early (y_utmp y) w (p_login p) (p_login_def p) (p_numsys p) (p_group p).
Proof.
  intros y early w p. unfold setup_limits. destruct (set_all (y_setrlimit y) (seq 0 NLIMITS) p) as [es ok].
  set (many := if w_uid w =? 0 then false else _). assert (Q : snd (let err := negb ok || negb (y_setpriority y (p_priority p)) in let es := (es ++ [Prio (p_priority p)])%list in if negb (p_nonew p =? 0) then ((es ++ [Nnp])%list, err || negb (y_prctl y), many) else (es, err, many)) = many) by (cbn zeta; destruct (negb (p_nonew p =? 0)); reflexivity). cbn zeta in Q. cbn zeta. rewrite Q. clear Q. subst many. unfold too_many.
  destruct (Z.eqb_spec (w_uid w) 0) as [R|R]; [split; [discriminate|intros (Q & _); contradiction]|].
  destruct (Z.ltb_spec 0 (p_login p)) as [L|L].
  - unfold check_logins. destruct (Z.ltb_spec (p_login p) 0); [lia|]. destruct (Z.eqb_spec (p_login p) 0); [lia|]. rewrite Z.ltb_lt.
    destruct (how_many_total (g_nam_nam (y_groups y)) (y_alive y) (w_name w) (p_numsys p) (p_login_def p) (p_group p) (y_utmp y)) as (n0 & HM).
    assert (UN : forall P us a b, how_many P us a -> how_many P us b -> a = b) by (clear; intros P us a b H; revert b; induction H as [|u us k C H IH|u us k C H IH]; intros b B; inversion B as [|? ? k' C' H'|? ? k' C' H']; subst; try contradiction; try reflexivity; [rewrite (IH _ H'); reflexivity|apply IH; exact H']).
    rewrite (count_spec _ _ _ _ _ _ n0 _ HM). split.
    + intro Q. split; [exact R|]. split; [lia|]. right. exists n0. split; [exact HM|]. destruct early; lia.
    + intros (_ & _ & [Q|(k & HK & Q)]); [lia|]. rewrite (UN _ _ _ _ HM HK). destruct early; lia.
  - rewrite Z.eqb_eq. split; [intro Q; split; [exact R|]; split; [lia|left; exact Q]|]. intros (_ & G & [Q|_]); lia.
Qed.

(** ** The session *)
(** What the files say: the first that cannot be read or lets the user off decides, else the entries of all. *)
Inductive fate := Fails | Let_off | Entries (es : list entry).
Inductive scanned (g : groups) (w : who) (must : bool) : list file -> fate -> Prop :=
| scan_none : scanned g w must [] (Entries [])
| scan_missing : forall fs v, must = false -> scanned g w must fs v -> scanned g w must (Missing :: fs) v
| scan_must : forall fs, must = true -> scanned g w must (Missing :: fs) Fails
| scan_unreadable : forall fs, scanned g w must (Unreadable :: fs) Fails
| scan_off : forall t fs l, In l (lines_of t) -> line_exempts g w (cut l) -> scanned g w must (Text t :: fs) Let_off
| scan_text : forall t fs es v, reads g w (lines_of t) es -> scanned g w must fs v -> scanned g w must (Text t :: fs) (match v with Entries es' => Entries (es ++ es') | v => v end).
(** What is done for a resource, given the limits it has (None: there is no such resource) and whether they were read from the kernel's text. *)
Definition resource_set (nr : option cstr) (es : list entry) (n : nat) (st : option (bool * Z * Z)) (fx : list effect) : Prop :=
  match st with
  | None => fx = []
  | Some (k, c, m) =>
      k = false /\ (forall e b x, In e es -> ~ gives b nr n e x) /\ fx = [] \/
      (k = true \/ exists e b x, In e es /\ gives b nr n e x) /\ exists s h, settled (gives true nr n) es c s /\ settled (gives false nr n) es m h /\ fx = [Rlimit n (Z.min s h) h]
  end.
(** The limits of a resource before: those of the process, or with set_all those in /proc/1/limits if it can be read. *)
Definition had (y : system) (all : bool) (n : nat) (st : option (bool * Z * Z)) : Prop :=
  match y_getrlimit y n with
  | Some (Some (c, m)) => (all = false \/ y_proc y = None) /\ st = Some (false, c, m) \/ all = true /\ exists k, (forall m, rlim (fst (k m)) /\ rlim (snd (k m))) /\ y_proc y = Some (kernel_text k) /\ st = Some (true, fst (k n), snd (k n))
  | _ => st = None
  end.
(** Each call worked. *)
Definition worked (y : system) (fx : effect) : Prop := match fx with Rlimit n c m => y_setrlimit y n c m = true | Prio v => y_setpriority y v = true | Nnp => y_prctl y = true end.

Lemma lines_text : forall t, Forall (fun l => line_text (cut l)) (lines_of t).
Proof.
  assert (C : forall l, line_text l -> line_text (cut l)).
  { intros l H a b Q. destruct (cut_prefix l) as (r & E & _). rewrite Q in E. rewrite <- app_assoc in E. cbn [app] in E. specialize (H a _ E). apply app_eq_nil in H. apply H. }
  assert (G : forall t, Forall line_text (lines_of t)).
  { induction t as [|c t IH]; cbn [lines_of]; [constructor|]. destruct (Ascii.eqb c c_nl) eqn:E.
    - constructor; [|exact IH]. intros a b Q. destruct a as [|x a]; [injection Q as _ <-; reflexivity|]. destruct a; discriminate.
    - destruct (lines_of t) as [|l ls].
      + constructor; [|constructor]. intros a b Q. destruct a as [|x a]; [injection Q as -> _; rewrite Ascii.eqb_refl in E; discriminate|]. destruct a; discriminate.
      + inversion IH as [|? ? H1 H2]; subst. constructor; [|exact H2]. intros a b Q. destruct a as [|x a]; [injection Q as -> _; rewrite Ascii.eqb_refl in E; discriminate|]. injection Q as -> Q. exact (H1 a b Q). }
  intro t. specialize (G t). induction G; constructor; auto.
Qed.

Section Session.
Variables (y : system) (w : who).
Hypothesis NC : ~ In ":"%char (w_name w).
Hypothesis named : forall m, g_nam_gid (y_groups y) (w_name w) m = true -> g_name (y_groups y) m <> None.
Notation nr := (y_nr_open y).
Notation g := (y_groups y).

(** The files one after the other. *)
Fixpoint parse_files (must : bool) (fs : list file) (p : limits) : res (Z * limits) :=
  match fs with
  | [] => Ok (PAM_SUCCESS, p)
  | f :: fs => bind (parse_config_file nr g w must f p) (fun '(rv, p) => if negb (rv =? PAM_SUCCESS) then Ok (rv, p) else parse_files must fs p)
  end.
Lemma files_scanned : forall must fs p, exists v, scanned g w must fs v /\
  match v with
  | Fails => exists q, parse_files must fs p = Ok (PAM_SERVICE_ERR, q)
  | Let_off => exists q, parse_files must fs p = Ok (PAM_IGNORE, q)
  | Entries es => parse_files must fs p = Ok (PAM_SUCCESS, fold_left (apply_entry nr) es p) /\ Forall (fun e => 0 <= e_src e <= 4) es
  end.
Proof.
  intros must fs. induction fs as [|f fs IH]; intro p; [exists (Entries []); split; [constructor|split; [reflexivity|constructor]]|]. cbn [parse_files]. destruct f as [t| |]; cbn [parse_config_file].
  - pose proof (limits_lines nr g w NC named (lines_of t) p (lines_text t)) as A. destruct (all_lines nr g w (lines_of t) p) as [p1| |]; [| |contradiction].
    + destruct A as (es & R & ->). cbn [bind]. change (negb (PAM_SUCCESS =? PAM_SUCCESS)) with false. cbv iota. destruct (IH (fold_left (apply_entry nr) es p)) as (v & S0 & V). eexists. split; [eapply scan_text; [exact R|exact S0]|]. destruct v as [| |es']; [exact V|exact V|]. destruct V as (V & F). rewrite fold_left_app. split; [exact V|]. apply Forall_app. split; [exact (reads_src _ _ _ _ R)|exact F].
    + destruct A as (l & I & X). exists Let_off. split; [exact (scan_off _ _ _ t fs l I X)|]. exists p. reflexivity.
  - destruct must.
    + exists Fails. split; [apply scan_must; reflexivity|]. exists p. reflexivity.
    + cbn [bind]. change (negb (PAM_SUCCESS =? PAM_SUCCESS)) with false. cbv iota. destruct (IH p) as (v & S0 & V). exists v. split; [apply scan_missing; [reflexivity|exact S0]|exact V].
  - exists Fails. split; [apply scan_unreadable|]. exists p. reflexivity.
Qed.
Lemma reads_unique : forall ls es es', Forall (fun l => line_text (cut l)) ls -> reads g w ls es -> reads g w ls es' -> es = es'.
Proof.
  intros ls es es' F R. revert es'. induction R as [|l ls es X N R IH|l ls e es X E R IH]; intros es' R'; inversion F as [|? ? LT F']; inversion R' as [|? ? ? X' N' Q'|? ? e' ? X' E' Q']; subst; auto; try (exfalso; eapply N; eassumption); try (exfalso; eapply N'; eassumption).
  rewrite (line_is_unique g w NC _ _ _ LT E E'). f_equal. apply IH; assumption.
Qed.
Theorem scanned_unique : forall must fs v v', scanned g w must fs v -> scanned g w must fs v' -> v = v'.
Proof.
  intros must fs v v' H. revert v'. induction H as [|fs v M H IH|fs M|fs|t fs l I X|t fs es v R H IH]; intros v' H'; inversion H' as [|? ? M' H1|? M'|?|? ? l' I' X'|? ? es' v1 R' H1]; subst; auto; try congruence.
  - exfalso. exact (reads_clean _ _ _ _ R' _ I X).
  - exfalso. exact (reads_clean _ _ _ _ R _ I' X').
  - rewrite (IH _ H1). rewrite (reads_unique _ _ _ (lines_text t) R R'). reflexivity.
Qed.
End Session.

Definition one_set (p : limits) (n : nat) : list effect :=
  let l := p_lims p n in
  if negb (l_supported l) then [] else if (l_soft_src l =? DEF_NONE) && (l_hard_src l =? DEF_NONE) then [] else [Rlimit n (if l_max l <? l_cur l then l_max l else l_cur l) (l_max l)].
Lemma set_all_spec : forall y p ns, fst (set_all (y_setrlimit y) ns p) = flat_map (one_set p) ns /\ (snd (set_all (y_setrlimit y) ns p) = true <-> Forall (worked y) (flat_map (one_set p) ns)).
Proof.
  intros y p ns. induction ns as [|n ns (IH1 & IH2)]; cbn [set_all flat_map]; [split; [reflexivity|split; auto]|]. destruct (set_all (y_setrlimit y) ns p) as [es ok]. cbn [fst snd] in *. unfold one_set at 1 3. cbv zeta. destruct (negb (l_supported (p_lims p n))); [auto|]. destruct ((l_soft_src (p_lims p n) =? DEF_NONE) && (l_hard_src (p_lims p n) =? DEF_NONE)); [auto|].
  cbn [fst snd app]. split; [rewrite IH1; reflexivity|]. rewrite andb_true_iff, IH2. split; [intros (A & B); constructor; [exact A|exact B]|]. intro F. inversion F; subst. auto.
Qed.
Lemma setup_spec : forall y early w p, exists tail, tail = (Prio (p_priority p) :: if p_nonew p =? 0 then [] else [Nnp]) /\
  fst (fst (setup_limits y early w p)) = (flat_map (one_set p) (seq 0 16) ++ tail)%list /\
  (snd (fst (setup_limits y early w p)) = false <-> Forall (worked y) (flat_map (one_set p) (seq 0 16) ++ tail)).
Proof.
  intros y early w p. eexists. split; [reflexivity|]. unfold setup_limits. change NLIMITS with 16%nat. destruct (set_all_spec y p (seq 0 16)) as (A & B). destruct (set_all (y_setrlimit y) (seq 0 16) p) as [es ok]. cbn [fst snd] in A, B. subst es. destruct (p_nonew p =? 0); cbn [negb fst snd]; rewrite Forall_app, <- B.
  - split; [reflexivity|]. rewrite orb_false_iff, !negb_false_iff. split; [intros (X & Y); split; [exact X|constructor; [exact Y|constructor]]|]. intros (X & Y). inversion Y; subst. auto.
  - split; [rewrite <- app_assoc; reflexivity|]. rewrite !orb_false_iff, !negb_false_iff. split; [intros ((X & Y) & Z0); split; [exact X|constructor; [exact Y|constructor; [exact Z0|constructor]]]|]. intros (X & Y). inversion Y as [|? ? Y1 Y2]; subst. inversion Y2; subst. auto.
Qed.
(** The limits to begin with. *)
Lemma init_spec : forall y all p n st, init_limits y all = Some p -> (n < 16)%nat -> had y all n st ->
  match st with None => l_supported (p_lims p n) = false | Some (k, c, m) => p_lims p n = mkLim true (if k : bool then 5 else 6) (if k then 5 else 6) c m end.
Proof.
  intros y all p n st I B H. unfold init_limits in I. destruct (existsb _ _) eqn:EX; [discriminate|]. destruct (y_getpriority y) as [v|]; [|discriminate]. injection I as <-. cbn [p_lims]. unfold had in H.
  assert (FO : forall c m, y_getrlimit y n = Some (Some (c, m)) -> found y n = mkLim true 6 6 c m) by (intros c m Q; unfold found; rewrite Q; reflexivity).
  assert (NS : (forall c m, y_getrlimit y n <> Some (Some (c, m))) -> l_supported (found y n) = false) by (intro Q; unfold found; destruct (y_getrlimit y n) as [[[c m]|]|]; [destruct (Q c m eq_refl)|reflexivity|reflexivity]).
  assert (KEEP : forall ls k f m, l_supported (kernel_lines ls k f m) = l_supported (f m)).
  { clear. induction ls as [|l ls IH]; intros k f m; cbn [kernel_lines]; [reflexivity|]. destruct (_ <? _)%nat; [apply IH|]. destruct (_ && _); [apply IH|]. destruct (kernel_fields _ _) as [[[nm s] h]|]; [|apply IH]. destruct (str2rlimit nm) as [i|]; [|apply IH]. rewrite IH. unfold put_kernel. destruct (Nat.eqb_spec m i); [subst; reflexivity|reflexivity]. }
  destruct (y_getrlimit y n) as [[[c m]|]|] eqn:G.
  - destruct H as [(A & ->)|(-> & k & R & E & ->)].
    + assert (Q : (if all then parse_kernel_limits (y_proc y) (found y) else found y) n = found y n) by (destruct all; [destruct A as [A|A]; [discriminate|rewrite A; reflexivity]|reflexivity]). rewrite Q. apply FO. reflexivity.
    + rewrite E, (kernel_limits_read k _ R n). destruct (Nat.ltb_spec n 16); [|lia]. rewrite (FO c m eq_refl). reflexivity.
  - subst st. assert (Q : l_supported ((if all then parse_kernel_limits (y_proc y) (found y) else found y) n) = l_supported (found y n)) by (destruct all; [|reflexivity]; destruct (y_proc y); [apply KEEP|reflexivity]). rewrite Q. apply NS. discriminate.
  - subst st. assert (Q : l_supported ((if all then parse_kernel_limits (y_proc y) (found y) else found y) n) = l_supported (found y n)) by (destruct all; [|reflexivity]; destruct (y_proc y); [apply KEEP|reflexivity]). rewrite Q. apply NS. discriminate.
Qed.
Lemma one_set_spec : forall nr es p n st, Forall (fun e => 0 <= e_src e <= 4) es -> unmixed nr n es ->
  match st with None => l_supported (p_lims p n) = false | Some (k, c, m) => p_lims p n = mkLim true (if k : bool then 5 else 6) (if k then 5 else 6) c m end ->
  resource_set nr es n st (one_set (fold_left (apply_entry nr) es p) n).
Proof.
  intros nr es p n st F UM H. unfold one_set. cbv zeta. rewrite supported_kept. destruct st as [[[k c] m]|]; cbn [resource_set]; [|rewrite H; reflexivity].
  assert (B : 4 < (if k : bool then 5 else 6)) by (destruct k; lia). pose proof (limits_soft nr n es p F) as SL. pose proof (limits_hard_partial nr n es p F) as HL. rewrite H in SL, HL |- *. cbn [l_soft_src l_hard_src l_cur l_max l_supported] in SL, HL |- *. specialize (SL B). specialize (HL B B UM). cbn zeta in SL, HL. cbn [negb]. set (l := p_lims (fold_left (apply_entry nr) es p) n) in *. clearbody l.
  assert (MN : (if l_max l <? l_cur l then l_max l else l_cur l) = Z.min (l_cur l) (l_max l)) by (destruct (Z.ltb_spec (l_max l) (l_cur l)); lia). rewrite MN. change DEF_NONE with 6.
  assert (WS : forall b s x, wins (gives b nr n) es s x -> s <= 4 /\ exists e, In e es /\ gives b nr n e x).
  { intros b s x (a & e & r & E & G & S0 & _). assert (I : In e es) by (rewrite E; apply in_elt). split; [|eauto]. rewrite Forall_forall in F. specialize (F e I). lia. }
  assert (SS : settled (gives true nr n) es c (l_cur l)) by (destruct SL as [W|(N & _ & E)]; [left; eauto|right; auto]).
  assert (HH : settled (gives false nr n) es m (l_max l)) by (destruct HL as [W|(N & _ & E)]; [left; eauto|right; auto]).
  assert (DO : (k = true \/ exists e b x, In e es /\ gives b nr n e x) -> (l_soft_src l =? 6) && (l_hard_src l =? 6) = false ->
     resource_set nr es n (Some (k, c, m)) (if (l_soft_src l =? 6) && (l_hard_src l =? 6) then [] else [Rlimit n (Z.min (l_cur l) (l_max l)) (l_max l)])).
  { intros A E. rewrite E. right. split; [exact A|]. exists (l_cur l), (l_max l). auto. }
  destruct SL as [W|(N1 & S1 & _)].
  - destruct (WS _ _ _ W) as (L & e & I & G). apply DO; [right; eauto|]. destruct (Z.eqb_spec (l_soft_src l) 6); [lia|reflexivity].
  - destruct HL as [W|(N2 & S2 & _)].
    + destruct (WS _ _ _ W) as (L & e & I & G). apply DO; [right; eauto|]. apply andb_false_iff. right. apply Z.eqb_neq. lia.
    + destruct k.
      * apply DO; [left; reflexivity|]. rewrite S1. reflexivity.
      * rewrite S1, S2. change ((6 =? 6) && (6 =? 6)) with true. cbv iota. left. split; [reflexivity|]. split; [|reflexivity]. intros e [|] x I G; [exact (N1 _ _ I G)|exact (N2 _ _ I G)].
Qed.
Lemma init_rest : forall y all p, init_limits y all = Some p -> p_login p = -2 /\ p_login_def p = 6 /\ p_numsys p = false /\ y_getpriority y = Some (p_priority p) /\ p_nonew p = 0 /\ p_group p = None.
Proof. intros y all p I. unfold init_limits in I. destruct (existsb _ _); [discriminate|]. destruct (y_getpriority y) as [v|]; [|discriminate]. injection I as <-. auto 8. Qed.

(** The files that are read: the one of conf=, or limits.conf and then those of limits.d in order. *)
Definition files (y : system) (o : opts) : list file :=
  match o_conf o with
  | Some f => [y_file y f]
  | None => map (y_file y) (LIMITS_FILE :: Access_Model.sort_files (match y_glob y with Some l => l | None => [] end))
  end.
(** C86 *)
Theorem limits_session_partial : forall y u w args pr st,
  ~ In ":"%char (w_name w) -> (forall m, g_nam_gid (y_groups y) (w_name w) m = true -> g_name (y_groups y) m <> None) ->
  (forall n, (n < 16)%nat -> y_getrlimit y n <> Some None) -> y_getpriority y = Some pr ->
  (forall n, (n < 16)%nat -> had y (o_all (parse args)) n (st n)) ->
  exists v, scanned (y_groups y) w (match o_conf (parse args) with Some _ => true | None => false end) (files y (parse args)) v /\
  match v with
  | Fails => open_session y (PAM_SUCCESS, Some u) (Some w) args = Ok (PAM_SERVICE_ERR, [])
  | Let_off => open_session y (PAM_SUCCESS, Some u) (Some w) args = Ok (PAM_SUCCESS, [])
  | Entries es => (forall n, unmixed (y_nr_open y) n es) ->
      exists fx prio nonew limit src all grp,
        let done := (flat_map fx (seq 0 16) ++ Prio prio :: (if nonew =? 0 then [] else [Nnp]))%list in
        let ok := Forall (worked y) done /\ ~ too_many (g_nam_nam (y_groups y)) (y_alive y) (o_early (parse args)) (y_utmp y) w limit src all grp in
        (forall n, (n < 16)%nat -> resource_set (y_nr_open y) es n (st n) (fx n)) /\
        latest gives_priority es pr prio /\ latest gives_nonew es 0 nonew /\
        (wins gives_logins es src limit \/ (forall e x, In e es -> ~ gives_logins e x) /\ limit = -2 /\ src = 6) /\
        latest says_all es false all /\ latest (fun e g => e_grp e = Some g) es [] (match grp with Some g => g | None => [] end) /\
        exists r, open_session y (PAM_SUCCESS, Some u) (Some w) args = Ok (r, done) /\ (r = PAM_SUCCESS /\ ok \/ r = PAM_PERM_DENIED /\ ~ ok)
  end.
Proof.
  intros y u w args pr st NC named GR PR ST. set (o := parse args) in *.
  assert (IN : exists p, init_limits y (o_all o) = Some p).
  { unfold init_limits. rewrite PR. destruct (existsb _ _) eqn:E; [|eauto]. apply existsb_exists in E. destruct E as (n & I & E). apply in_seq in I. specialize (GR n ltac:(change NLIMITS with 16%nat in I; lia)). destruct (y_getrlimit y n) as [[[? ?]|]|]; (discriminate || contradiction). }
  destruct IN as (p & IN). destruct (init_rest _ _ _ IN) as (L1 & L2 & L3 & L4 & L5 & L6).
  set (must := match o_conf o with Some _ => true | None => false end).
  destruct (files_scanned y w NC named must (files y o) p) as (v & SC & V). exists v. split; [exact SC|].
  (* the module reads the files as [parse_files] does *)
  assert (MORE : forall fs q, more_files y w fs q = parse_files y w false (map (y_file y) fs) q).
  { clear. induction fs as [|f fs IH]; intro q; cbn [more_files parse_files map]; [reflexivity|]. destruct (parse_config_file (y_nr_open y) (y_groups y) w false (y_file y f) q) as [[rv p1]| |]; cbn [bind]; [|reflexivity|reflexivity]. destruct (negb (rv =? PAM_SUCCESS)); [reflexivity|apply IH]. }
  assert (RUN : open_session y (PAM_SUCCESS, Some u) (Some w) args = bind (parse_files y w must (files y o) p) (fun '(rv, q) =>
      if rv =? PAM_IGNORE then Ok (PAM_SUCCESS, []) else if negb (rv =? PAM_SUCCESS) then Ok (rv, []) else let '(es, err, many) := setup_limits y (o_early o) w q in if err || many then Ok (PAM_PERM_DENIED, es) else Ok (PAM_SUCCESS, es))).
  { unfold open_session. fold o. change (negb (PAM_SUCCESS =? PAM_SUCCESS)) with false. cbv iota zeta. rewrite IN. unfold files, must. destruct (o_conf o) as [f|].
    - cbn [parse_files]. destruct (parse_config_file (y_nr_open y) (y_groups y) w true (y_file y f) p) as [[rv q]| |]; cbn [bind]; [|reflexivity|reflexivity].
      destruct (Z.eqb_spec rv PAM_IGNORE) as [->|NI]; [reflexivity|]. destruct (Z.eqb_spec rv PAM_SUCCESS) as [->|NS]; cbn [negb orb bind].
      + change (PAM_SUCCESS =? PAM_IGNORE) with false. cbv iota. reflexivity.
      + destruct (Z.eqb_spec rv PAM_IGNORE); [contradiction|]. destruct (Z.eqb_spec rv PAM_SUCCESS); [contradiction|reflexivity].
    - cbn [parse_files map]. destruct (parse_config_file (y_nr_open y) (y_groups y) w false (y_file y LIMITS_FILE) p) as [[rv q]| |]; cbn [bind]; [|reflexivity|reflexivity].
      destruct (Z.eqb_spec rv PAM_IGNORE) as [->|NI]; [reflexivity|]. destruct (Z.eqb_spec rv PAM_SUCCESS) as [->|NS]; cbn [negb orb bind]; [rewrite MORE; reflexivity|].
      destruct (Z.eqb_spec rv PAM_IGNORE); [contradiction|]. destruct (Z.eqb_spec rv PAM_SUCCESS); [contradiction|reflexivity]. }
  destruct v as [| |es].
  - destruct V as (q & V). rewrite RUN, V. reflexivity.
  - destruct V as (q & V). rewrite RUN, V. reflexivity.
  - destruct V as (V & F). intro UM. set (q := fold_left (apply_entry (y_nr_open y)) es p) in *.
    exists (one_set q), (p_priority q), (p_nonew q), (p_login q), (p_login_def q), (p_numsys q), (p_group q).
    split; [intros n B; apply one_set_spec; [exact F|apply UM|apply (init_spec y (o_all o)); [exact IN|exact B|apply ST; exact B]]|].
    split; [pose proof (priority_last (y_nr_open y) es p) as PL; assert (pr = p_priority p) by congruence; subst pr; exact PL|]. split; [pose proof (nonew_last (y_nr_open y) es p) as NL; rewrite L5 in NL; exact NL|].
    split; [pose proof (limits_logins (y_nr_open y) es p F ltac:(rewrite L2; lia)) as LL; cbn zeta in LL; rewrite L1, L2 in LL; fold q in LL; tauto|].
    split; [pose proof (numsys_last (y_nr_open y) es p) as NS; rewrite L3 in NS; exact NS|]. split; [pose proof (group_last (y_nr_open y) es p) as GL; rewrite L6 in GL; exact GL|].
    rewrite RUN, V. cbn [bind]. change (PAM_SUCCESS =? PAM_IGNORE) with false. change (negb (PAM_SUCCESS =? PAM_SUCCESS)) with false. cbv iota.
    destruct (setup_spec y (o_early o) w q) as (tl & -> & E1 & E2). pose proof (logins_refused y (o_early o) w q) as LR. destruct (setup_limits y (o_early o) w q) as [[es' err] many]. cbn [fst snd] in E1, E2, LR. subst es'.
    destruct err; cbn [orb].
    + eexists. split; [reflexivity|]. right. split; [reflexivity|]. intros (A & _). apply E2 in A. discriminate.
    + destruct many; eexists; (split; [reflexivity|]).
      * right. split; [reflexivity|]. intros (_ & A). apply A, LR. reflexivity.
      * left. split; [reflexivity|]. split; [apply E2; reflexivity|]. intro A. apply LR in A. discriminate.
Qed.

(** ** Without a session *)
(** No user name, an unknown user, limits that cannot be found: the error and nothing is done. *)
Theorem limits_not_opened : forall y rv u w args,
  (rv <> PAM_SUCCESS -> open_session y (rv, u) w args = Ok (PAM_SESSION_ERR, [])) /\ open_session y (rv, None) w args = Ok (PAM_SESSION_ERR, []) /\
  (u <> None -> open_session y (PAM_SUCCESS, u) None args = Ok (PAM_USER_UNKNOWN, [])) /\
  (forall x, u <> None -> w = Some x -> (exists n, (n < 16)%nat /\ y_getrlimit y n = Some None) \/ y_getpriority y = None -> open_session y (PAM_SUCCESS, u) w args = Ok (PAM_ABORT, [])).
Proof.
  intros y rv u w args. unfold open_session. split; [|split; [reflexivity|split]].
  - intro N. destruct u as [u|]; [|reflexivity]. destruct (Z.eqb_spec rv PAM_SUCCESS); [contradiction|reflexivity].
  - intro N. destruct u as [u|]; [reflexivity|contradiction].
  - intros x N -> H. destruct u as [u|]; [|contradiction]. change (negb (PAM_SUCCESS =? PAM_SUCCESS)) with false. cbv iota zeta. unfold init_limits. destruct H as [(n & B & E)|E].
    + assert (X : existsb (fun n => match y_getrlimit y n with Some None => true | _ => false end) (seq 0 NLIMITS) = true) by (apply existsb_exists; exists n; split; [apply in_seq; change NLIMITS with 16%nat; lia|rewrite E; reflexivity]). rewrite X. reflexivity.
    + rewrite E. destruct (existsb _ _); reflexivity.
Qed.
(** The arguments: the last conf=, and whether utmp_early and set_all are there. *)
Definition names_conf (a v : cstr) : Prop := a = (lit "conf=" ++ v)%list.
Theorem limits_options : forall args,
  (o_early (parse args) = true <-> In (lit "utmp_early") args) /\ (o_all (parse args) = true <-> In (lit "set_all") args) /\
  (forall v, o_conf (parse args) = Some v <-> exists a b, args = (a ++ (lit "conf=" ++ v) :: b)%list /\ forall x v', In x b -> ~ names_conf x v').
Proof.
  intros args. unfold parse. induction args as [|a args IH] using rev_ind; [cbn; split; [split; [discriminate|intros []]|]; split; [split; [discriminate|intros []]|]; intro v; split; [discriminate|]; intros (x & b & Q & _); destruct x; discriminate|].
  rewrite fold_left_app. cbn [fold_left]. set (o := fold_left parse_one args (mkOpts None false false)) in *. destruct IH as (I1 & I2 & I3).
  assert (SP : skip_prefix (lit "conf=") a = None \/ exists v, skip_prefix (lit "conf=") a = Some v /\ a = (lit "conf=" ++ v)%list) by (destruct (skip_prefix (lit "conf=") a) as [v|] eqn:E; [right; exists v; split; [reflexivity|apply skip_prefix_some; exact E]|left; reflexivity]).
  assert (NOC : (forall v, a <> (lit "conf=" ++ v)%list) -> forall v, o_conf o = Some v <-> exists x b, (args ++ [a])%list = (x ++ (lit "conf=" ++ v) :: b)%list /\ forall z v', In z b -> ~ names_conf z v').
  { intros N v. rewrite I3. split; intros (x & b & Q & B).
    - exists x, (b ++ [a])%list. split; [rewrite Q, <- app_assoc; reflexivity|]. intros z v' J. apply in_app_or in J. destruct J as [J|[<-|[]]]; [exact (B _ _ J)|apply N].
    - destruct (exists_last (l := (lit "conf=" ++ v)%list :: b) ltac:(discriminate)) as (b' & z & E). rewrite E, app_assoc in Q. apply app_inj_tail in Q. destruct Q as (-> & <-). destruct b' as [|h b']; [injection E as E1 E2; exfalso; apply (N v); symmetry; exact E1|]. assert (b = (b' ++ [a])%list) by exact (f_equal (@tl _) E). subst b. assert (h = (lit "conf=" ++ v)%list) by exact (eq_sym (f_equal (hd []) E)). subst h. exists x, b'. split; [reflexivity|]. intros z v' J. apply B. apply in_or_app. left. exact J. }
  assert (NE : forall l : cstr, a <> l -> (In l (args ++ [a]) <-> In l args)) by (intros l N; rewrite in_app_iff; cbn [In]; tauto).
  unfold parse_one. destruct (streq a (lit "debug")) eqn:D.
  - apply streq_eq in D. subst a. rewrite !NE by discriminate. split; [exact I1|]. split; [exact I2|]. apply NOC. intros v Q. discriminate.
  - destruct SP as [SP|(v0 & SP & ->)].
    + assert (NP : forall v, a <> (lit "conf=" ++ v)%list) by (intros v ->; rewrite (proj2 (skip_prefix_some _ _ v) eq_refl) in SP; discriminate). rewrite SP. destruct (streq a (lit "utmp_early")) eqn:E1; [apply streq_eq in E1; subst a; cbn [o_early o_all o_conf]; rewrite (NE (lit "set_all")) by discriminate; split; [split; [intros _; apply in_or_app; right; left; reflexivity|reflexivity]|]; split; [exact I2|apply NOC; exact NP]|].
      assert (A1 : a <> lit "utmp_early") by (intros ->; rewrite streq_refl in E1; discriminate).
      destruct (streq a (lit "noaudit")) eqn:E2; [apply streq_eq in E2; subst a; rewrite !NE by discriminate; split; [exact I1|]; split; [exact I2|apply NOC; exact NP]|].
      destruct (streq a (lit "set_all")) eqn:E3; [apply streq_eq in E3; subst a; cbn [o_early o_all o_conf]; rewrite (NE (lit "utmp_early")) by discriminate; split; [exact I1|]; split; [split; [intros _; apply in_or_app; right; left; reflexivity|reflexivity]|apply NOC; exact NP]|].
      assert (A3 : a <> lit "set_all") by (intros ->; rewrite streq_refl in E3; discriminate). rewrite !NE by assumption. split; [exact I1|]. split; [exact I2|apply NOC; exact NP].
    + rewrite SP. cbn [o_early o_all o_conf]. rewrite !NE by discriminate. split; [exact I1|]. split; [exact I2|]. intro v. split.
      * intro Q. injection Q as ->. exists args, []. split; [reflexivity|intros ? ? []].
      * intros (x & b & Q & B). destruct (exists_last (l := (lit "conf=" ++ v)%list :: b) ltac:(discriminate)) as (b' & z & E). rewrite E, app_assoc in Q. apply app_inj_tail in Q. destruct Q as (-> & <-). destruct b' as [|h b']; [assert (Q : (lit "conf=" ++ v)%list = (lit "conf=" ++ v0)%list) by exact (f_equal (hd []) E); apply app_inv_head in Q; congruence|]. assert (b = (b' ++ [(lit "conf=" ++ v0)%list])%list) by exact (f_equal (@tl _) E). subst b. exfalso. apply (B (lit "conf=" ++ v0)%list v0); [apply in_or_app; right; left; reflexivity|reflexivity].
Qed.

(** ** Examples and what does not hold *)
(** Lines joined with newlines. *)
Definition conf_of (ls : list string) : cstr := concat (map (fun l => lit l ++ [c_nl])%list ls).
Definition joe : who := mkWho (lit "joe") 1000 100.
Definition no_groups : groups := mkGr (fun u g => streq u (lit "joe") && streq g (lit "admin") || streq g (lit "users")) (fun u m => streq u (lit "joe") && (m =? 100)) (fun m => if m =? 100 then Some (lit "users") else None).
(** A system with limits 10 and 20 for every resource, priority 0, limits.conf of these lines, and these logins. *)
Definition sys_of (ls : list string) (us : list login) : system :=
  mkSys (fun n => Some (Some (10, 20))) (Some 0) None (Some (lit "1048576" ++ [c_nl])%list) (fun f => if streq f LIMITS_FILE then Text (conf_of ls) else Missing) (Some []) (fun _ _ _ => true) (fun _ => true) true us (fun p => 0 <? p) no_groups.
Definition run (ls : list string) (us : list login) : res (Z * list effect) := open_session (sys_of ls us) (PAM_SUCCESS, Some (lit "joe")) (Some joe) [].

Lemma sys_named : forall ls us m, g_nam_gid (y_groups (sys_of ls us)) (w_name joe) m = true -> g_name (y_groups (sys_of ls us)) m <> None.
Proof. intros ls us m H. cbn [sys_of y_groups no_groups g_nam_gid g_name] in *. apply andb_true_iff in H. destruct H as (_ & H). rewrite H. discriminate. Qed.
(** The conditions of [limits_session_partial] hold for these systems, and the limits are set. *)
Example session_ex : ~ In ":"%char (w_name joe) /\ (forall n, (n < 16)%nat -> had (sys_of [] []) false n (Some (false, 10, 20))) /\
  run ["# limits"%string; "*  soft  core 0"%string; "@admin - nofile 100"%string; "joe hard nofile 50 # less"%string; "1000: hard cpu unlimited"%string; "* - maxlogins 2"%string] [mkLogin true (lit "joe") 7; mkLogin true (lit "joe") (-1); mkLogin true (lit "ann") 8] =
    Ok (PAM_SUCCESS, [Rlimit 0 10 UNLIMITED; Rlimit 4 0 20; Rlimit 7 50 50; Prio 0]) /\
  run ["* - maxlogins 1"%string; "joe - nonewprivs 1"%string] [mkLogin true (lit "joe") 7] = Ok (PAM_PERM_DENIED, [Prio 0; Nnp]) /\
  run ["joe - nofile 5"%string; "@admin -"%string; "joe - cpu 5"%string] [] = Ok (PAM_SUCCESS, []).
Proof. split; [intro I; cbn in I; repeat (destruct I as [I|I]; [discriminate|]); contradiction|]. split; [intros n B; unfold had; cbn; left; auto|]. split; [reflexivity|]. split; reflexivity. Qed.
(** An entry read from a line, and what it asks for. *)
Example line_ex : line_is no_groups joe (lit "  @admin   HARD nofile  1000 # x") (mkE 1 None (lit "hard") (lit "nofile") (lit "1000")) /\
  gives false None 7 (mkE 1 None (lit "hard") (lit "nofile") (lit "1000")) 1000 /\ gives true None 2 (mkE 0 None (lit "-") (lit "data") (lit "7k")) 7168 /\ gives true None 13 (mkE 4 None (lit "soft") (lit "nice") (lit "-30")) 40.
Proof.
  split.
  - pose proof (limits_line None no_groups joe ltac:(intro I; cbn in I; repeat (destruct I as [I|I]; [discriminate|]); contradiction) (sys_named [] []) (lit "  @admin   HARD nofile  1000 # x") (mkPl 0 0 false 0 0 (fun _ => mkLim true 6 6 0 0) None)) as O.
    assert (LT : line_text (lit "  @admin   HARD nofile  1000 # x")) by (intros a b Q; exfalso; assert (I : In c_nl (lit "  @admin   HARD nofile  1000 # x")) by (rewrite Q; apply in_elt); cbn in I; repeat (destruct I as [I|I]; [discriminate|]); contradiction). specialize (O LT).
    exists (lit "@admin   HARD nofile  1000 "), (lit "@admin"), (lit "HARD"), (lit "nofile"), (lit "1000").
    split; [apply body_strip; [exact LT|reflexivity]|]. split; [apply split_fields4; reflexivity|]. split; [apply by_group; [discriminate|intro I; cbn in I; repeat (destruct I as [I|I]; [discriminate|]); contradiction|reflexivity]|]. repeat split.
  - split; [apply gives_iff; split; [reflexivity|]; split; [reflexivity|]; split; [right; reflexivity|split; discriminate]|]. split; (apply gives_iff; split; [reflexivity|]; split; [reflexivity|]; split; [(left; reflexivity) || (right; reflexivity)|split; discriminate]).
Qed.
(** Precedence among entries. *)
Example precedence_ex : forall p, 4 < l_soft_src (p_lims p 7) -> 4 < l_hard_src (p_lims p 7) ->
  let es := [mkE 4 None (lit "-") (lit "nofile") (lit "10"); mkE 1 None (lit "-") (lit "nofile") (lit "30"); mkE 4 None (lit "-") (lit "nofile") (lit "5")] in
  unmixed None 7 es /\ wins (gives true None 7) es 1 30.
Proof.
  intros p B1 B2. assert (G : forall s v x, (s = 4 \/ s = 1) -> read_value None 7 v = Some x -> gives true None 7 (mkE s None (lit "-") (lit "nofile") v) x) by (intros s v x S0 V; apply gives_iff; split; [reflexivity|]; split; [exact V|]; split; [left; reflexivity|cbn; lia]). cbn zeta. split.
  - intros a e b e0 x x0 Q I _ _ _ _. assert (J : In e0 [mkE 4 None (lit "-") (lit "nofile") (lit "10"); mkE 1 None (lit "-") (lit "nofile") (lit "30"); mkE 4 None (lit "-") (lit "nofile") (lit "5")]) by (rewrite Q; apply in_or_app; left; exact I). destruct J as [<-|[<-|[<-|[]]]]; reflexivity.
  - exists [mkE 4 None (lit "-") (lit "nofile") (lit "10")], (mkE 1 None (lit "-") (lit "nofile") (lit "30")), [mkE 4 None (lit "-") (lit "nofile") (lit "5")]. split; [reflexivity|]. split; [apply G; [auto|reflexivity]|]. split; [reflexivity|]. split; [intros e' x' [<-|[]] _; cbn; lia|intros e' x' [<-|[]] _; cbn; lia].
Qed.
Example logins_ex : too_many (fun _ _ => false) (fun _ => true) false [mkLogin true (lit "joe") 5; mkLogin true (lit "ann") 6] joe 1 4 false None /\ ~ too_many (fun _ _ => false) (fun _ => true) true [mkLogin true (lit "joe") 5; mkLogin true (lit "ann") 6] joe 1 4 false None.
Proof.
  assert (H : how_many (counted (fun _ _ => false) (fun _ => true) (w_name joe) false 4 None) [mkLogin true (lit "joe") 5; mkLogin true (lit "ann") 6] (0 + 1)).
  { apply many_one; [split; [reflexivity|]; split; [discriminate|]; right; split; [reflexivity|]; split; [reflexivity|]; split; [reflexivity|discriminate]|]. apply many_skip; [|constructor]. intros (_ & _ & [Q|(_ & _ & Q & _)]); [discriminate|]. specialize (Q (or_intror (or_intror eq_refl))). discriminate. }
  split; [split; [discriminate|]; split; [lia|]; right; exists (0 + 1); split; [exact H|lia]|].
  intros (_ & _ & [Q|(n & HN & L)]); [discriminate|]. assert (UN : forall P us a b, how_many P us a -> how_many P us b -> a = b) by (clear; intros P us a b H; revert b; induction H as [|u us k C H IH|u us k C H IH]; intros b B; inversion B as [|? ? k' C' H'|? ? k' C' H']; subst; try contradiction; try reflexivity; [rewrite (IH _ H'); reflexivity|apply IH; exact H']). rewrite <- (UN _ _ _ _ H HN) in L. lia.
Qed.

(** The hard limit does not follow the precedence when [unmixed] fails: the hard limit of the group is not set although no other entry gives one. *)
Theorem dash_sets_both_refuted : exists es, (exists e x, In e es /\ gives true None 7 e x /\ gives false None 7 e x) /\ (forall e e' x x', In e es -> In e' es -> gives false None 7 e x -> gives false None 7 e' x' -> e = e') /\
  l_max (p_lims (fold_left (apply_entry None) es (mkPl (-2) 6 false 0 0 (fun _ => mkLim true 6 6 10 2000) None)) 7) = 2000 /\ run ["joe soft nofile 15"%string; "@admin - nofile 5"%string] [] = Ok (PAM_SUCCESS, [Rlimit 7 15 20; Prio 0]).
Proof.
  exists [mkE 0 None (lit "soft") (lit "nofile") (lit "100"); mkE 1 None (lit "-") (lit "nofile") (lit "50")]. split; [|split; [|split; reflexivity]].
  - exists (mkE 1 None (lit "-") (lit "nofile") (lit "50")), 50. split; [right; left; reflexivity|]. split; (apply gives_iff; split; [reflexivity|]; split; [reflexivity|]; split; [left; reflexivity|split; discriminate]).
  - intros e e' x x' I I' G G'. apply gives_iff in G, G'. destruct G as (_ & _ & T & _), G' as (_ & _ & T' & _). destruct I as [<-|[<-|[]]]; [destruct T; discriminate|]. destruct I' as [<-|[<-|[]]]; [destruct T'; discriminate|reflexivity].
Qed.
(** What limits.conf(5) says of a group without limits: a limit of a member is not set. *)
Theorem individual_over_group_refuted : exists ls, In "joe hard nofile 5"%string ls /\ In "@admin -"%string ls /\ run ls [] = Ok (PAM_SUCCESS, []) /\ run ["joe hard nofile 5"%string] [] = Ok (PAM_SUCCESS, [Rlimit 7 5 5; Prio 0]).
Proof. exists ["joe hard nofile 5"%string; "@admin -"%string]. split; [left; reflexivity|]. split; [right; left; reflexivity|]. split; reflexivity. Qed.
(** A wildcard or a %group without limits exempts no one; limits.conf(5) says it does. *)
Theorem wildcard_dash_refuted : run ["* -"%string; "* hard nofile 5"%string] [] = Ok (PAM_SUCCESS, [Rlimit 7 5 5; Prio 0]) /\ run ["%admin -"%string; "* hard nofile 5"%string] [] = Ok (PAM_SUCCESS, [Rlimit 7 5 5; Prio 0]).
Proof. split; reflexivity. Qed.
(** %:<gid> without limits exempts the user whose uid this is. *)
Theorem percent_gid_dash_refuted : g_nam_gid no_groups (lit "joe") 1000 = false /\ run ["%:1000 -"%string; "* hard nofile 5"%string] [] = Ok (PAM_SUCCESS, []) /\
  g_nam_gid no_groups (lit "joe") 100 = true /\ run ["%:100 -"%string; "* hard nofile 5"%string] [] = Ok (PAM_SUCCESS, [Rlimit 7 5 5; Prio 0]).
Proof. repeat split. Qed.
(** The kind of counting is that of the last entry for logins even if another one gives the limit: joe is allowed two logins, has none, and is refused as ann and bob are there. *)
Theorem numsys_of_winner_refuted : let us := [mkLogin true (lit "ann") 5; mkLogin true (lit "bob") 6] in
  run ["joe - maxlogins 2"%string] us = Ok (PAM_SUCCESS, [Prio 0]) /\ run ["* - maxsyslogins 100"%string] us = Ok (PAM_SUCCESS, [Prio 0]) /\
  run ["joe - maxlogins 2"%string; "* - maxsyslogins 100"%string] us = Ok (PAM_PERM_DENIED, [Prio 0]).
Proof. repeat split. Qed.
(** The limit of all logins can be given as "% maxlogins" or "* maxsyslogins"; these are not the same: entries of dead processes count for the second. *)
Theorem percent_is_syslogins_refuted : let us := [mkLogin true (lit "ann") (-1)] in
  run ["% - maxlogins 1"%string] us = Ok (PAM_SUCCESS, [Prio 0]) /\ run ["* - maxsyslogins 1"%string] us = Ok (PAM_PERM_DENIED, [Prio 0]).
Proof. repeat split. Qed.
(** The group counted is that of the last %group line: joe's logins with admin are counted by the limit for users. *)
Theorem group_of_winner_refuted : let us := [mkLogin true (lit "ann") 5] in
  g_nam_nam no_groups (lit "ann") (lit "admin") = false /\ run ["%admin - maxlogins 1"%string] us = Ok (PAM_SUCCESS, [Prio 0]) /\
  run ["%admin - maxlogins 1"%string; "%users - nofile 5"%string] us = Ok (PAM_PERM_DENIED, [Prio 0]).
Proof. repeat split. Qed.
(** The priority and nonewprivs do not follow the precedence; a wrong value for nonewprivs switches it off. *)
Theorem priority_precedence_refuted : run ["joe - priority 5"%string; "* - priority 1"%string] [] = Ok (PAM_SUCCESS, [Prio 1]) /\
  run ["joe - nonewprivs 1"%string; "* - nonewprivs 0"%string] [] = Ok (PAM_SUCCESS, [Prio 0]) /\ run ["joe - nonewprivs 1"%string; "joe - nonewprivs yes"%string] [] = Ok (PAM_SUCCESS, [Prio 0]).
Proof. repeat split. Qed.
(** Uids are taken modulo 2^32, negative numbers and text after a number are accepted as values. *)
Theorem odd_numbers_refuted : run ["4294967296:4294968296 hard nofile 5"%string] [] = Ok (PAM_SUCCESS, [Rlimit 7 5 5; Prio 0]) /\ run ["joe hard fsize -5"%string] [] = Ok (PAM_SUCCESS, [Rlimit 1 10 UNLIMITED; Prio 0]) /\
  run ["joe hard nofile 5m"%string] [] = Ok (PAM_SUCCESS, [Rlimit 7 5 5; Prio 0]).
Proof. repeat split. Qed.
(** The limits are set although the login is refused; a limit for a name longer than the 32 bytes of utmp is not enforced. *)
Theorem long_name_refuted : let name := repeat "a"%char 33 in let w := mkWho name 1000 100 in let us := repeat (mkLogin true (repeat "a"%char 32) 5) 3 in
  open_session (sys_of ["* - maxlogins 1"%string] us) (PAM_SUCCESS, Some name) (Some w) [] = Ok (PAM_SUCCESS, [Prio 0]).
Proof. reflexivity. Qed.

Print Assumptions limits_session_partial.
Print Assumptions limits_soft.
Print Assumptions limits_hard_partial.
Print Assumptions limits_logins.
Print Assumptions logins_refused.
Print Assumptions limits_options.
Print Assumptions limits_line.
Print Assumptions scanned_unique.
Print Assumptions dash_sets_both_refuted.
