(** The lines pam_line.c assembles are the logical lines of Line_Spec.v. *)
From Coq Require Import String Ascii List Arith ZArith Lia Bool.
From Verif Require Import Base Line_Model Line_Spec.
Import ListNotations.

(** What the replacement character adds. *)
Definition added (repl : ascii) : cstr := if Ascii.eqb repl NUL then [] else [repl].
Definition good_repl (repl : ascii) : Prop := repl <> c_hash /\ repl <> c_nl.
(** A physical line: no NUL, a newline only at its end. *)
Definition physical (line : cstr) : Prop := ~ In NUL line /\ forall a b, line = a ++ c_nl :: b -> b = [].

Lemma is_blank_white : forall c, is_blank c = true <-> white c.
Proof.
  intros c. unfold is_blank, white. rewrite orb_true_iff, !Ascii.eqb_eq. reflexivity.
Qed.

Lemma is_trail_white : forall c, is_trail c = true <-> white_nl c.
Proof. intros c. unfold is_trail, white_nl. rewrite orb_true_iff, is_blank_white, Ascii.eqb_eq. reflexivity. Qed.

Lemma back_scan_trail : forall w x r, Forall white_nl w -> is_trail x = false -> back_scan (w ++ x :: r) = x :: r.
Proof.
  intros w x r H Hx. induction H as [|c w Hc H IH].
  - cbn [app back_scan]. rewrite Hx. destruct r; reflexivity.
  - cbn [app back_scan]. destruct (w ++ x :: r) as [|d t] eqn:E; [destruct w; discriminate|].
    apply is_trail_white in Hc. rewrite Hc. exact IH.
Qed.

Lemma back_scan_suffix : forall r, exists w, r = w ++ back_scan r /\ Forall white_nl w.
Proof.
  induction r as [|c r IH]; [exists []; split; [reflexivity|constructor]|].
  cbn [back_scan]. destruct r as [|d t]; [exists []; split; [reflexivity|constructor]|].
  destruct (is_trail c) eqn:E; [|exists []; split; [reflexivity|constructor]].
  destruct IH as (w & EQ & F). exists (c :: w). split; [cbn [app]; f_equal; exact EQ|].
  constructor; [apply is_trail_white; exact E|exact F].
Qed.

Lemma unescnl_some : forall repl line body, continued line body -> unescnl repl line = Some (body ++ added repl).
Proof.
  intros repl line body (w & -> & F). unfold unescnl. rewrite rev_app_distr. cbn [rev]. rewrite <- app_assoc. cbn [app].
  rewrite back_scan_trail; [|apply Forall_rev; exact F|reflexivity].
  change (Ascii.eqb (chr 92) c_bslash) with true. cbv iota. rewrite rev_involutive. reflexivity.
Qed.

Lemma unescnl_none : forall repl line, (forall body, ~ continued line body) -> unescnl repl line = None.
Proof.
  intros repl line H. unfold unescnl. destruct (back_scan_suffix (rev line)) as (w & E & F).
  destruct (back_scan (rev line)) as [|c t]; [reflexivity|]. destruct (Ascii.eqb_spec c c_bslash) as [->|N]; [|reflexivity].
  exfalso. apply (H (rev t)). exists (rev w). split; [|apply Forall_rev; exact F].
  rewrite <- (rev_involutive line), E, rev_app_distr. cbn [rev]. rewrite <- app_assoc. reflexivity.
Qed.

Lemma continued_dec : forall line, (exists body, continued line body) \/ (forall body, ~ continued line body).
Proof.
  intros line. destruct (back_scan_suffix (rev line)) as (w & E & F). destruct (unescnl c_space line) as [l|] eqn:U.
  - left. unfold unescnl in U. destruct (back_scan (rev line)) as [|c t]; [discriminate|].
    destruct (Ascii.eqb_spec c c_bslash) as [->|N]; [|discriminate]. exists (rev t), (rev w). split; [|apply Forall_rev; exact F].
    rewrite <- (rev_involutive line), E, rev_app_distr. cbn [rev]. rewrite <- app_assoc. reflexivity.
  - right. intros body HC. rewrite (unescnl_some _ _ _ HC) in U. discriminate.
Qed.

Lemma skip_blank_white : forall w s, Forall white w -> match s with c :: _ => ~ white c | [] => True end -> skip_blank (w ++ s) = s.
Proof.
  intros w s H Hs. induction H as [|c w Hc H IH].
  - destruct s as [|c s]; [reflexivity|]. cbn [app skip_blank]. destruct (is_blank c) eqn:E; [apply is_blank_white in E; contradiction|reflexivity].
  - cbn [app skip_blank]. apply is_blank_white in Hc. rewrite Hc. exact IH.
Qed.

Lemma cut_plain : forall t s, ~ In NUL t -> ~ In c_hash t -> cut_comment (t ++ s) = t ++ cut_comment s.
Proof.
  induction t as [|c t IH]; intros s HN HH; [reflexivity|]. cbn [app cut_comment].
  destruct (Ascii.eqb_spec c NUL) as [->|N]; [exfalso; apply HN; left; reflexivity|].
  destruct (Ascii.eqb_spec c c_hash) as [->|N2]; [exfalso; apply HH; left; reflexivity|].
  f_equal. apply IH; intros X; [apply HN|apply HH]; right; exact X.
Qed.

Lemma text_cut : forall s t, text s t -> ~ In NUL s ->
  exists u, cut_comment (skip_blank s) = t ++ u /\ (u = [] \/ exists v, u = NUL :: v) /\ (~ In c_hash s -> u = []).
Proof.
  intros s t H HN. destruct H as [w t tail HW HS HH HT]. rewrite skip_blank_white by assumption.
  assert (HNt : ~ In NUL t) by (intros X; apply HN; apply in_or_app; right; apply in_or_app; left; exact X).
  rewrite cut_plain by assumption. exists (cut_comment tail). split; [reflexivity|].
  destruct HT as [->|(v & ->)]; [split; [left; reflexivity|intros _; reflexivity]|].
  split; [right; exists v; reflexivity|]. intros X. exfalso. apply X. apply in_or_app; right; apply in_or_app; right. left; reflexivity.
Qed.

Lemma text_total : forall s, exists t, text s t.
Proof.
  intros s.
  assert (A : exists w s', s = w ++ s' /\ Forall white w /\ match s' with c :: _ => ~ white c | [] => True end).
  { induction s as [|c s (w & s' & -> & F & G)]; [exists [], []; repeat split; constructor|].
    destruct (is_blank c) eqn:E.
    - exists (c :: w), s'. repeat split; auto. constructor; [apply is_blank_white; exact E|exact F].
    - exists [], (c :: w ++ s'). repeat split; auto. intros X. apply is_blank_white in X. congruence. }
  destruct A as (w & s' & -> & F & G).
  assert (B : exists t tail, s' = t ++ tail /\ ~ In c_hash t /\ (tail = [] \/ exists u, tail = c_hash :: u)).
  { clear. induction s' as [|c s (t & tail & -> & H & T)]; [exists [], []; repeat split; auto|].
    destruct (Ascii.eqb_spec c c_hash) as [->|N].
    - exists [], (c_hash :: t ++ tail). repeat split; auto. right. eexists. reflexivity.
    - exists (c :: t), tail. repeat split; auto. intros [X|X]; [congruence|auto]. }
  destruct B as (t & tail & -> & H & T). exists t. apply text_intro; assumption.
Qed.

Lemma text_incl : forall s t c, text s t -> In c t -> In c s.
Proof. intros s t c H HI. destruct H. apply in_or_app; right; apply in_or_app; left; exact HI. Qed.

Lemma cpart_plain : forall s, ~ In NUL s -> cpart s = s.
Proof.
  induction s as [|c s IH]; intros H; [reflexivity|]. cbn [cpart].
  destruct (Ascii.eqb_spec c NUL) as [->|N]; [exfalso; apply H; left; reflexivity|]. f_equal. apply IH. intros X; apply H; right; exact X.
Qed.

Lemma cpart_cut : forall s u, ~ In NUL s -> (u = [] \/ exists v, u = NUL :: v) -> cpart (s ++ u) = s.
Proof.
  induction s as [|c s IH]; intros u H HU.
  - destruct HU as [->|(v & ->)]; reflexivity.
  - cbn [app cpart]. destruct (Ascii.eqb_spec c NUL) as [->|N]; [exfalso; apply H; left; reflexivity|].
    f_equal. apply IH; auto. intros X; apply H; right; exact X.
Qed.

Lemma has_hash_spec : forall s, ~ In NUL s -> (has_hash s = true <-> In c_hash s).
Proof.
  intros s H. unfold has_hash. rewrite cpart_plain by assumption. rewrite existsb_exists. split.
  - intros (c & A & B). apply Ascii.eqb_eq in B. subst c. exact A.
  - intros A. exists c_hash. split; [exact A|apply Ascii.eqb_refl].
Qed.

Lemma added_chars : forall repl c, In c (added repl) -> c = repl /\ c <> NUL.
Proof.
  intros repl c H. unfold added in H. destruct (Ascii.eqb_spec repl NUL) as [E|E]; [destruct H|]. destruct H as [<-|[]]. split; auto.
Qed.

Lemma body_in : forall line body c, continued line body -> In c body -> In c line.
Proof. intros line body c (w & -> & _) H. apply in_or_app; left; exact H. Qed.

Lemma body_added_nul : forall repl line body, ~ In NUL line -> continued line body -> ~ In NUL (body ++ added repl).
Proof.
  intros repl line body HN HC X. apply in_app_or in X. destruct X as [X|X]; [apply HN; apply (body_in _ _ _ HC X)|].
  apply added_chars in X. destruct X; congruence.
Qed.

Lemma body_added_hash : forall repl body, good_repl repl -> (In c_hash (body ++ added repl) <-> In c_hash body).
Proof.
  intros repl body [HG _]. split; intros X; [|apply in_or_app; left; exact X].
  apply in_app_or in X. destruct X as [X|X]; [exact X|]. apply added_chars in X. destruct X; congruence.
Qed.

(** One physical line. *)
Lemma piece_prepare : forall repl line b t, good_repl repl -> ~ In NUL line -> piece (added repl) line b t ->
  exists u, prepare repl line = (negb b, t ++ u) /\ (u = [] \/ exists v, u = NUL :: v) /\ (b = true -> u = []) /\ ~ In NUL t.
Proof.
  intros repl line b t HG HN H. unfold prepare. destruct H as [line body t HC HH HT|line body t HC HH HT|line t HC HT].
  - rewrite (unescnl_some _ _ _ HC). pose proof (body_added_nul repl _ _ HN HC) as HNB.
    destruct (text_cut _ _ HT HNB) as (u & E & U & UH).
    exists u. rewrite E. assert (EH : has_hash (body ++ added repl) = false).
    { destruct (has_hash (body ++ added repl)) eqn:X; auto. apply has_hash_spec in X; auto. apply body_added_hash in X; auto. contradiction. }
    rewrite EH. split; [reflexivity|]. split; [exact U|]. split.
    + intros _. apply UH. intros X. apply body_added_hash in X; auto.
    + intros X. apply HNB. exact (text_incl _ _ _ HT X).
  - rewrite (unescnl_some _ _ _ HC). pose proof (body_added_nul repl _ _ HN HC) as HNB.
    destruct (text_cut _ _ HT HNB) as (u & E & U & UH).
    exists u. rewrite E. assert (EH : has_hash (body ++ added repl) = true).
    { apply has_hash_spec; auto. apply body_added_hash; auto. }
    rewrite EH. split; [reflexivity|]. split; [exact U|]. split; [discriminate|].
    intros X. apply HNB. exact (text_incl _ _ _ HT X).
  - rewrite (unescnl_none _ _ HC). destruct (text_cut _ _ HT HN) as (u & E & U & UH). exists u. rewrite E.
    split; [reflexivity|]. split; [exact U|]. split; [discriminate|]. intros X. apply HN. exact (text_incl _ _ _ HT X).
Qed.

Lemma piece_total : forall r line, exists b t, piece r line b t.
Proof.
  intros r line. destruct (continued_dec line) as [(body & HC)|HC].
  - destruct (text_total (body ++ r)) as (t & HT). destruct (in_dec ascii_dec c_hash body) as [H|H].
    + exists false, t. eapply piece_comment; eauto.
    + exists true, t. eapply piece_more; eauto.
  - destruct (text_total line) as (t & HT). exists false, t. apply piece_end; auto.
Qed.

Lemma more_no_newline : forall repl line t, good_repl repl -> physical line -> piece (added repl) line true t -> ~ In c_nl t.
Proof.
  intros repl line t [_ HG] [_ HP] H HI. inversion H as [line' body t' HC HH HT| |]; subst.
  pose proof (text_incl _ _ _ HT HI) as X. apply in_app_or in X. destruct X as [X|X].
  - destruct HC as (w & E & _). apply in_split in X. destruct X as (a & b & ->). rewrite <- app_assoc in E. cbn [app] in E.
    specialize (HP _ _ E). destruct b; discriminate.
  - apply added_chars in X. destruct X; congruence.
Qed.

(** ** The loop *)

Definition sofar (asm : option (list ascii)) : cstr := match asm with Some a => a | None => [] end.
Definition fine (asm : option (list ascii)) : Prop :=
  match asm with None => True | Some a => a <> [] /\ ~ In NUL a /\ ~ In c_nl a end.

Lemma empty_dec : forall t, empty_line t \/ ~ empty_line t.
Proof.
  intros [|c t]; [left; left; reflexivity|]. destruct (Ascii.eqb_spec c c_nl) as [->|N].
  - left; right; eexists; reflexivity.
  - right. intros [X|(u & X)]; [discriminate|]. injection X as X _. exact (N X).
Qed.

Lemma assemble_group : forall repl g t, good_repl repl -> group (added repl) g t -> Forall physical g ->
  forall rest asm going, fine asm ->
  (empty_line (sofar asm ++ t) -> assemble repl (g ++ rest) asm going = assemble repl rest None false) /\
  (~ empty_line (sofar asm ++ t) -> assemble repl (g ++ rest) asm going = LLine (sofar asm ++ t) rest).
Proof.
  intros repl g t HG H. induction H as [line t HP|line ls t u HP HGr IH]; intros HF rest asm going HA.
  - destruct (piece_prepare _ _ _ _ HG (proj1 (Forall_inv HF)) HP) as (u & E & U & _ & HNt).
    cbn [app assemble]. rewrite E. cbn [negb]. destruct asm as [a|]; cbn [sofar app].
    + destruct HA as (A1 & A2 & A3). destruct a as [|c a]; [congruence|].
      assert (HE : ~ empty_line ((c :: a) ++ t)).
      { intros [X|(x & X)]; [discriminate|]. injection X as X _. apply A3. left; exact X. }
      split; [intros X; contradiction|intros _].
      assert (HB : buf_add_eol (Some (c :: a)) (t ++ u) = Some ((c :: a) ++ t ++ u)).
      { cbn [buf_add_eol]. unfold buf_add. destruct (t ++ u) as [|x y]; [rewrite app_nil_r; reflexivity|reflexivity]. }
      rewrite HB. cbn [app buf_valid]. destruct (Ascii.eqb_spec c NUL) as [->|N]; [exfalso; apply A2; left; reflexivity|]. cbn [negb].
      change (c :: a ++ t ++ u) with ((c :: a) ++ t ++ u). rewrite app_assoc, cpart_cut; auto.
      intros X. apply in_app_or in X. destruct X; contradiction.
    + destruct t as [|c t].
      * split; [|intros X; exfalso; apply X; left; reflexivity]. intros _.
        destruct U as [->|(v & ->)]; reflexivity.
      * destruct (Ascii.eqb_spec c NUL) as [->|N]; [exfalso; apply HNt; left; reflexivity|].
        cbn [app buf_add_eol]. destruct (Ascii.eqb_spec c NUL) as [|_]; [contradiction|]. cbn [orb].
        destruct (Ascii.eqb_spec c c_nl) as [->|N2].
        -- split; [intros _; reflexivity|]. intros X; exfalso; apply X. right; eexists; reflexivity.
        -- split; [intros [X|(x & X)]; [discriminate|injection X as X _; contradiction]|]. intros _.
           cbn [buf_add buf_valid]. destruct (Ascii.eqb_spec c NUL) as [|_]; [contradiction|]. cbn [negb].
           change (c :: t ++ u) with ((c :: t) ++ u). rewrite cpart_cut; auto.
  - pose proof (Forall_inv HF) as HFl. pose proof (Forall_inv_tail HF) as HFt.
    destruct (piece_prepare _ _ _ _ HG (proj1 HFl) HP) as (v & E & _ & V & HNt). rewrite (V eq_refl), app_nil_r in E.
    pose proof (more_no_newline _ _ _ HG HFl HP) as HNn.
    cbn [app assemble]. rewrite E. cbn [negb].
    assert (HA' : fine (buf_add asm t) /\ sofar (buf_add asm t) = sofar asm ++ t).
    { destruct t as [|c t]; [cbn [buf_add]; rewrite app_nil_r; auto|]. destruct asm as [a|]; cbn [buf_add fine sofar app].
      - destruct HA as (A1 & A2 & A3). split; [|reflexivity]. split; [destruct a; discriminate|].
        split; intros X; apply in_app_or in X; destruct X; contradiction.
      - split; [|reflexivity]. split; [discriminate|]. split; assumption. }
    destruct HA' as [F' S']. destruct (IH HFt rest (buf_add asm t) true F') as [I1 I2]. rewrite S', <- app_assoc in I1, I2. split; assumption.
Qed.

Lemma assemble_cut : forall repl f, good_repl repl -> Forall physical f -> Forall (fun x => exists t, piece (added repl) x true t) f ->
  forall asm going, (f <> [] \/ going = true) -> assemble repl f asm going = LErr.
Proof.
  intros repl f HG HF H. induction H as [|line f (t & HP) H IH]; intros asm going HX.
  - destruct HX as [HX|HX]; [congruence|]. subst going. reflexivity.
  - destruct (piece_prepare _ _ _ _ HG (proj1 (Forall_inv HF)) HP) as (v & E & _).
    cbn [assemble]. rewrite E. cbn [negb]. apply IH; [exact (Forall_inv_tail HF)|right; reflexivity].
Qed.

Lemma group_nonempty : forall r g t, group r g t -> 1 <= length g.
Proof. intros r g t H. destruct H; cbn [length]; lia. Qed.

Lemma assemble_nil_line : forall repl f asm going s rest, assemble repl f asm going = LLine s rest -> length rest < length f.
Proof.
  induction f as [|l f IH]; intros asm going s rest H; cbn [assemble] in H; [destruct going; discriminate|].
  destruct (prepare repl l) as [[|] seg].
  - destruct (buf_valid (buf_add_eol asm seg)); [inversion H; subst; cbn [length]; lia|]. specialize (IH _ _ _ _ H). cbn [length]; lia.
  - specialize (IH _ _ _ _ H). cbn [length]; lia.
Qed.

Lemma all_lines_step : forall n m repl f, length f < n -> length f < m -> all_lines_fuel n repl f = all_lines_fuel m repl f.
Proof.
  induction n as [|n IH]; intros m repl f HN HM; [lia|]. destruct m as [|m]; [lia|]. cbn [all_lines_fuel].
  destruct (assemble repl f None false) as [|s rest|] eqn:E; auto.
  pose proof (assemble_nil_line _ _ _ _ _ _ E). rewrite (IH m repl rest); [reflexivity|lia|lia].
Qed.

(** A reading according to the rules is what the code produces. *)
Lemma logical_file_lines : forall repl f ls ok, good_repl repl -> logical (added repl) f ls ok -> Forall physical f ->
  file_lines repl f = (ls, ok).
Proof.
  intros repl f ls ok HG H. unfold file_lines.
  induction H as [|l HL HF|g t rest ls ok Hg He H IH|g t rest ls ok Hg He H IH]; intros HP.
  - reflexivity.
  - cbn [all_lines_fuel]. rewrite (assemble_cut repl l HG HP HF); [reflexivity|left; exact HL].
  - apply Forall_app in HP. destruct HP as [HP1 HP2]. specialize (IH HP2).
    pose proof (proj1 (assemble_group repl g t HG Hg HP1 rest None false I) He) as E.
    rewrite <- IH. pose proof (group_nonempty _ _ _ Hg). rewrite (all_lines_step (S (length rest)) (S (length (g ++ rest)))).
    + cbn [all_lines_fuel]. rewrite E. reflexivity.
    + unfold cstr in *; lia.
    + rewrite app_length. unfold cstr in *; lia.
  - apply Forall_app in HP. destruct HP as [HP1 HP2]. specialize (IH HP2).
    pose proof (proj2 (assemble_group repl g t HG Hg HP1 rest None false I) He) as E.
    pose proof (group_nonempty _ _ _ Hg). cbn [all_lines_fuel]. rewrite E. cbn [sofar app].
    assert (X : all_lines_fuel (length (g ++ rest)) repl rest = (ls, ok)).
    { rewrite <- IH. apply all_lines_step; rewrite ?app_length; unfold cstr in *; lia. }
    match goal with |- (let (_, _) := ?x in _) = _ => replace x with (ls, ok) by (symmetry; exact X) end. reflexivity.
Qed.

(** Every list of physical lines has a reading. *)
Lemma logical_total : forall r f, exists ls ok, logical r f ls ok.
Proof.
  intros r f. remember (length f) as n eqn:En. assert (HL : length f <= n) by lia. clear En. revert f HL.
  induction n as [|n IH]; intros f HL.
  - destruct f; [|cbn [length] in HL; lia]. exists [], true. constructor.
  - assert (D : (exists g t rest, f = g ++ rest /\ group r g t) \/ Forall (fun x => exists t, piece r x true t) f).
    { clear. induction f as [|x f IH]; [right; constructor|]. destruct (piece_total r x) as ([|] & t & HP).
      - destruct IH as [(g & u & rest & -> & Hg)|IH].
        + left. exists (x :: g), (t ++ u), rest. split; [reflexivity|]. constructor; assumption.
        + right. constructor; eauto.
      - left. exists [x], t, f. split; [reflexivity|]. constructor; exact HP. }
    destruct D as [(g & t & rest & -> & Hg)|D].
    + pose proof (group_nonempty _ _ _ Hg). rewrite app_length in HL. destruct (IH rest) as (ls & ok & HI); [lia|].
      destruct (empty_dec t) as [He|He]; eexists _, _; [eapply log_skip|eapply log_line]; eassumption.
    + destruct f as [|x f]; [exists [], true; constructor|]. exists [], false. apply log_cut; [discriminate|exact D].
Qed.

Lemma split_lines_physical : forall s, ~ In NUL s -> Forall physical (split_lines s).
Proof.
  induction s as [|c s IH]; intros HN; [constructor|]. cbn [split_lines].
  assert (HN' : ~ In NUL s) by (intros X; apply HN; right; exact X). specialize (IH HN').
  assert (HC : c <> NUL) by (intros ->; apply HN; left; reflexivity).
  destruct (Ascii.eqb_spec c c_nl) as [->|N].
  - constructor; [|exact IH]. split; [intros [X|[]]; congruence|]. intros a b E. destruct a as [|x a]; [injection E as <-; reflexivity|].
    injection E as _ E. destruct a; discriminate.
  - destruct (split_lines s) as [|l ls].
    + constructor; [|constructor]. split; [intros [X|[]]; congruence|]. intros a b E. destruct a as [|x a]; [injection E as E _; congruence|].
      injection E as _ E. destruct a; discriminate.
    + pose proof (Forall_inv IH) as [P1 P2]. constructor; [|exact (Forall_inv_tail IH)]. split.
      * intros [X|X]; [congruence|contradiction].
      * intros a b E. destruct a as [|x a]; [injection E as E _; congruence|]. injection E as _ E. exact (P2 _ _ E).
Qed.

Lemma split_lines_concat : forall s, concat (split_lines s) = s.
Proof.
  induction s as [|c s IH]; [reflexivity|]. cbn [split_lines]. destruct (Ascii.eqb c c_nl).
  - cbn [concat app]. rewrite IH. reflexivity.
  - destruct (split_lines s) as [|l ls] eqn:E; cbn [concat app] in *.
    + rewrite <- IH. reflexivity.
    + rewrite <- IH. reflexivity.
Qed.
