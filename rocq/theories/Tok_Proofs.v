From Coq Require Import String Ascii List Arith ZArith Lia Bool.
From Verif Require Import Base Tok_Model Tok_Spec.
Import ListNotations.

Lemma rd_at : forall a c b, rd (a ++ c :: b) (length a) = Ok c.
Proof. intros. unfold rd. rewrite nth_error_app2, Nat.sub_diag by lia. reflexivity. Qed.

Lemma wr_at : forall a c b x, wr (a ++ c :: b) (length a) x = Ok (a ++ x :: b).
Proof.
  intros a c b x. unfold wr.
  assert (H : upd (a ++ c :: b) (length a) x = Some (a ++ x :: b)).
  { induction a as [|y a IH]; simpl; auto. rewrite IH. reflexivity. }
  rewrite H. reflexivity.
Qed.

Lemma rd_app : forall a s b i c, nth_error (s ++ [NUL]) i = Some c -> rd (a ++ s ++ NUL :: b) (length a + i) = Ok c.
Proof.
  intros a s b i c H. unfold rd. rewrite nth_error_app2 by lia. replace (length a + i - length a) with i by lia.
  replace (s ++ NUL :: b) with ((s ++ [NUL]) ++ b) by (rewrite <- app_assoc; reflexivity).
  rewrite nth_error_app1, H; auto. apply nth_error_Some. congruence.
Qed.

Lemma nul_not_delim : is_delim NUL = false.
Proof. reflexivity. Qed.

Lemma app_snoc : forall A (a : list A) x b, a ++ x :: b = (a ++ [x]) ++ b.
Proof. intros. rewrite <- app_assoc. reflexivity. Qed.

Lemma snoc_len : forall A (a : list A) x, length (a ++ [x]) = S (length a).
Proof. intros. rewrite app_length. simpl. lia. Qed.

Lemma ok3 : forall A B C (a a' : A) (b b' : B) (c c' : C), a = a' -> b = b' -> c = c' -> Ok (a, b, c) = Ok (a', b', c').
Proof. congruence. Qed.
Lemma okn : forall A (a a' : A) (b b' : nat), a = a' -> b = b' -> Ok (a, Some (b, @None nat)) = Ok (a', Some (b', None)).
Proof. congruence. Qed.
Lemma oks : forall A (a a' : A) (b b' : nat) (c c' : nat), a = a' -> b = b' -> c = c' -> Ok (a, Some (b, Some c)) = Ok (a', Some (b', Some c')).
Proof. congruence. Qed.

Ltac lens := simpl in *; repeat (rewrite app_length in *; simpl in *); lia.

(** Skipping blanks. *)
Lemma span_mem_spec : forall s pre post fuel, length s < fuel -> ~ In NUL s ->
  exists w, s = w ++ drop_delims s /\
    span_mem fuel (pre ++ s ++ NUL :: post) (length pre) = Ok (length pre + length w).
Proof.
  induction s as [|c s IH]; intros pre post fuel HF HN; (destruct fuel as [|fuel]; [simpl in HF; lia|]).
  - exists []. split; auto. simpl. rewrite rd_at. simpl. f_equal. lia.
  - cbn [span_mem app]. rewrite rd_at. cbn [bind drop_delims]. destruct (is_delim c) eqn:EC.
    + destruct (IH (pre ++ [c]) post fuel) as (w & E & H); [simpl in HF; lia|intro; apply HN; right; auto|].
      exists (c :: w). split; [simpl; congruence|].
      rewrite app_snoc. rewrite snoc_len in H. rewrite H. simpl. f_equal. lia.
    + exists []. split; [reflexivity|]. simpl. rewrite Nat.add_0_r; reflexivity.
Qed.

Lemma cspan_mem_spec : forall s pre post fuel, length s < fuel -> ~ In NUL s ->
  let (a, b) := take_word s in s = a ++ b /\
    cspan_mem fuel (pre ++ s ++ NUL :: post) (length pre) = Ok (length pre + length a).
Proof.
  induction s as [|c s IH]; intros pre post fuel HF HN; (destruct fuel as [|fuel]; [simpl in HF; lia|]).
  - simpl. rewrite rd_at. simpl. split; [reflexivity|]. rewrite Nat.add_0_r; reflexivity.
  - cbn [cspan_mem take_word app]. rewrite rd_at. cbn [bind]. destruct (is_delim c) eqn:EC.
    + simpl. split; [reflexivity|]. rewrite Nat.add_0_r; reflexivity.
    + assert (EN : is_nul c = false). { apply Ascii.eqb_neq. intros ->. apply HN. left; auto. }
      rewrite EN. cbn [orb].
      specialize (IH (pre ++ [c]) post fuel). destruct (take_word s) as [a b].
      destruct IH as [E H]; [simpl in HF; lia|intro; apply HN; right; auto|].
      split; [simpl; congruence|]. rewrite app_snoc. rewrite snoc_len in H. rewrite H. simpl. f_equal. lia.
Qed.

(** The bracket loop: [pre ++ done] has been written, [gap] is left-over between to and end. *)
Lemma bracket_mem_spec : forall n s pre gap post fuel, length s <= n -> length s < fuel -> ~ In NUL s ->
  let (a, b) := take_bracket s in
  exists gap', bracket_mem fuel (pre ++ gap ++ s ++ NUL :: post) (length pre) (length pre + length gap)
      = Ok (pre ++ a ++ gap' ++ b ++ NUL :: post, length pre + length a, length pre + length a + length gap') /\
    length gap' + length a + length b = length gap + length s /\
    (gap = [] -> gap' = [] \/ length gap' >= 1) /\ length b <= length s.
Proof.
  induction n as [|n IH]; intros s pre gap post fuel HL HF HN.
  { destruct s; [|simpl in HL; lia]. destruct fuel; [simpl in HF; lia|]. simpl.
    exists gap. rewrite app_assoc. rewrite <- app_length. rewrite rd_at. simpl. rewrite <- app_assoc.
    rewrite app_length, Nat.add_0_r. split; [reflexivity|]. split; [lia|]. split; [|lia]. intros ->; left; reflexivity. }
  destruct s as [|c s].
  { destruct fuel; [simpl in HF; lia|]. simpl.
    exists gap. rewrite app_assoc. rewrite <- app_length. rewrite rd_at. simpl. rewrite <- app_assoc.
    rewrite app_length, Nat.add_0_r. split; [reflexivity|]. split; [lia|]. split; [|lia]. intros ->; left; reflexivity. }
  destruct fuel as [|fuel]; [simpl in HF; lia|].
  assert (EN : is_nul c = false). { apply Ascii.eqb_neq. intros ->. apply HN. left; auto. }
  assert (HNs : ~ In NUL s) by (intro; apply HN; right; auto).
  cbn [bracket_mem take_bracket]. cbn [app].
  assert (ER : rd (pre ++ gap ++ c :: s ++ NUL :: post) (length pre + length gap) = Ok c).
  { rewrite app_assoc, <- app_length. apply rd_at. }
  rewrite ER. cbn [bind]. rewrite EN. cbn [orb].
  destruct (Ascii.eqb_spec c c_rbr) as [->|NR].
  { exists gap. simpl. rewrite Nat.add_0_r. split; [reflexivity|]. split; [lia|]. split; [|lia]. intros ->; left; reflexivity. }
  (* step copying character x found at position e, with gap2 then between *)
  assert (STEP : forall x gap2 t, length t <= length s -> length t <= n -> length t < fuel -> ~ In NUL t ->
     pre ++ gap ++ c :: s ++ NUL :: post = pre ++ gap2 ++ x :: t ++ NUL :: post ->
     length gap2 + S (length t) = length gap + S (length s) ->
     let (a, b) := take_bracket t in
     exists gap', bind (if (length pre =? length pre + length gap2)%nat then Ok (pre ++ gap2 ++ x :: t ++ NUL :: post)
         else bind (rd (pre ++ gap2 ++ x :: t ++ NUL :: post) (length pre + length gap2))
                (fun y => wr (pre ++ gap2 ++ x :: t ++ NUL :: post) (length pre) y))
         (fun b => bracket_mem fuel b (S (length pre)) (S (length pre + length gap2)))
       = Ok (pre ++ (x :: a) ++ gap' ++ b ++ NUL :: post, length pre + length (x :: a), length pre + length (x :: a) + length gap') /\
       length gap' + length (x :: a) + length b = length gap + length (c :: s) /\
       (gap = [] -> gap' = [] \/ length gap' >= 1) /\ length b <= length (c :: s)).
  { intros x gap2 t HTs HT HF2 HN2 EB EL.
    destruct gap2 as [|g gap2].
    - replace (length pre =? length pre + length (@nil ascii)) with true by (symmetry; apply Nat.eqb_eq; simpl; lia).
      cbn [bind app]. specialize (IH t (pre ++ [x]) [] post fuel HT HF2 HN2).
      destruct (take_bracket t) as [a b]. destruct IH as (gap' & E & L & G & LB).
      exists gap'. rewrite snoc_len in E. cbn [app length] in *. rewrite Nat.add_0_r in E.
      replace (S (length pre + 0)) with (S (length pre)) by lia.
      rewrite app_snoc. rewrite E. rewrite <- app_assoc. cbn [app]. split; [apply ok3; [reflexivity|simpl; lia|simpl; lia]|].
      simpl in *. repeat split; try lia; intros _; destruct gap'; simpl; (left; reflexivity) || (right; lia).
    - replace (length pre =? length pre + length (g :: gap2)) with false by (symmetry; apply Nat.eqb_neq; simpl; lia).
      assert (ER2 : rd (pre ++ (g :: gap2) ++ x :: t ++ NUL :: post) (length pre + length (g :: gap2)) = Ok x).
      { rewrite app_assoc, <- app_length. apply rd_at. }
      rewrite ER2. cbn [bind app]. rewrite wr_at. cbn [bind].
      specialize (IH t (pre ++ [x]) (gap2 ++ [x]) post fuel HT HF2 HN2).
      destruct (take_bracket t) as [a b]. destruct IH as (gap' & E & L & G & LB).
      exists gap'. rewrite snoc_len in E. rewrite snoc_len in E.
      replace (S (length pre + length (g :: gap2))) with (S (length pre) + S (length gap2)) by (simpl; lia).
      replace (pre ++ x :: gap2 ++ x :: t ++ NUL :: post) with ((pre ++ [x]) ++ (gap2 ++ [x]) ++ t ++ NUL :: post)
        by (rewrite <- ?app_assoc; reflexivity).
      rewrite E. rewrite <- app_assoc. cbn [app]. split; [apply ok3; [reflexivity|simpl; lia|simpl; lia]|].
      rewrite snoc_len in L. simpl in *. repeat split; try lia; intros _; destruct gap'; simpl; (left; reflexivity) || (right; lia). }
  destruct (Ascii.eqb_spec c c_bslash) as [->|NB].
  - assert (ER3 : rd (pre ++ gap ++ c_bslash :: s ++ NUL :: post) (S (length pre + length gap)) =
                  Ok (match s with d :: _ => d | [] => NUL end)).
    { replace (pre ++ gap ++ c_bslash :: s ++ NUL :: post) with ((pre ++ gap ++ [c_bslash]) ++ s ++ NUL :: post)
        by (rewrite <- ?app_assoc; reflexivity).
      replace (S (length pre + length gap)) with (length (pre ++ gap ++ [c_bslash])) by (rewrite !app_length; simpl; lia).
      destruct s; apply rd_at. }
    rewrite ER3. cbn [bind]. destruct s as [|d s].
    + change (Ascii.eqb NUL c_rbr) with false. cbv iota.
      specialize (STEP c_bslash gap [] ltac:(simpl; lia) ltac:(simpl; lia) ltac:(simpl in *; lia) ltac:(intros []) eq_refl eq_refl). exact STEP.
    + destruct (Ascii.eqb_spec d c_rbr) as [->|ND].
      * specialize (STEP c_rbr (gap ++ [c_bslash]) s ltac:(simpl; lia) ltac:(simpl in *; lia) ltac:(simpl in *; lia)
          ltac:(intro; apply HNs; right; auto)).
        rewrite snoc_len in STEP.
        assert (EB : pre ++ gap ++ c_bslash :: (c_rbr :: s) ++ NUL :: post = pre ++ (gap ++ [c_bslash]) ++ c_rbr :: s ++ NUL :: post)
          by (rewrite <- ?app_assoc; reflexivity).
        specialize (STEP EB ltac:(simpl; lia)).
        rewrite <- EB in STEP. replace (length pre + S (length gap)) with (S (length pre + length gap)) in STEP by lia.
        destruct (take_bracket s) as [a b]. exact STEP.
      * specialize (STEP c_bslash gap (d :: s) ltac:(simpl; lia) ltac:(simpl in *; lia) ltac:(simpl in *; lia) HNs eq_refl eq_refl).
        destruct (take_bracket (d :: s)) as [a b]. exact STEP.
  - specialize (STEP c gap s ltac:(simpl; lia) ltac:(simpl in *; lia) ltac:(simpl in *; lia) HNs eq_refl eq_refl).
    cbn [bind]. destruct (take_bracket s) as [a b]. exact STEP.
Qed.

Lemma take_bracket_b : forall n s, length s <= n -> match snd (take_bracket s) with [] => True | c :: _ => c = c_rbr end.
Proof.
  induction n as [|n IH]; intros s H; (destruct s as [|c s]; [exact I|]); [simpl in H; lia|].
  cbn [take_bracket]. destruct (Ascii.eqb_spec c c_rbr); [auto|].
  destruct (Ascii.eqb c c_bslash).
  - destruct s as [|d s]; [exact I|]. destruct (Ascii.eqb d c_rbr).
    + specialize (IH s ltac:(simpl in H; lia)). destruct (take_bracket s). auto.
    + specialize (IH (d :: s) ltac:(simpl in *; lia)). destruct (take_bracket (d :: s)). auto.
  - specialize (IH s ltac:(simpl in H; lia)). destruct (take_bracket s). auto.
Qed.

Lemma take_bracket_in : forall n s x, length s <= n -> In x (fst (take_bracket s)) \/ In x (snd (take_bracket s)) -> In x s.
Proof.
  induction n as [|n IH]; intros s x H HI; (destruct s as [|c s]; [simpl in HI; tauto|]); [simpl in H; lia|].
  cbn [take_bracket] in HI. destruct (Ascii.eqb c c_rbr); [simpl in *; tauto|].
  destruct (Ascii.eqb c c_bslash).
  - destruct s as [|d s]; [simpl in *; tauto|]. destruct (Ascii.eqb d c_rbr).
    + specialize (IH s x ltac:(simpl in H; lia)). destruct (take_bracket s) as [a b]; simpl in *. tauto.
    + specialize (IH (d :: s) x ltac:(simpl in *; lia)). destruct (take_bracket (d :: s)) as [a b]; simpl in *. tauto.
  - specialize (IH s x ltac:(simpl in H; lia)). destruct (take_bracket s) as [a b]; simpl in *. tauto.
Qed.

Lemma drop_delims_head : forall s, match drop_delims s with [] => True | c :: _ => is_delim c = false end.
Proof. induction s as [|c s IH]; simpl; auto. destruct (is_delim c) eqn:E; auto. Qed.

Lemma drop_delims_in : forall s x, In x (drop_delims s) -> In x s.
Proof. induction s as [|c s IH]; simpl; auto. intros x H. destruct (is_delim c); auto. Qed.

Lemma take_word_b : forall s, match snd (take_word s) with [] => True | c :: _ => is_delim c = true end.
Proof. induction s as [|c s IH]; simpl; auto. destruct (is_delim c) eqn:E; simpl; auto. destruct (take_word s). auto. Qed.

(** One call: what the memory version does, in terms of the string version. *)
Lemma tokenize_mem_spec : forall pre s post, ~ In NUL s ->
  match tokenize s with
  | None => tokenize_mem (pre ++ s ++ NUL :: post) (length pre) = Ok (pre ++ s ++ NUL :: post, None)
  | Some (t, nx) =>
      exists u v, (* the buffer is now pre u t NUL v ... *)
        ~ In NUL t /\
        match nx with
        | None => length (u ++ t ++ NUL :: v) = length (s ++ NUL :: post) /\
            tokenize_mem (pre ++ s ++ NUL :: post) (length pre)
              = Ok (pre ++ u ++ t ++ NUL :: v, Some (length pre + length u, None))
        | Some s' =>
            length (u ++ t ++ NUL :: v ++ s' ++ NUL :: post) = length (s ++ NUL :: post) /\
            s' <> [] /\ ~ In NUL s' /\ length s' + 1 <= length s /\
            tokenize_mem (pre ++ s ++ NUL :: post) (length pre)
              = Ok (pre ++ u ++ t ++ NUL :: v ++ s' ++ NUL :: post,
                    Some (length pre + length u, Some (length pre + length (u ++ t ++ NUL :: v))))
        end
  end.
Proof.
  intros pre s post HN.
  assert (HFUEL : forall k, length s < S (length (pre ++ s ++ NUL :: post) + k)) by (intro; rewrite !app_length; lia).
  destruct (span_mem_spec s pre post (S (length (pre ++ s ++ NUL :: post)))) as (w & EW & HS);
    [specialize (HFUEL 0); lia|auto|].
  unfold tokenize, tokenize_mem. rewrite HS. cbn [bind].
  pose proof (drop_delims_head s) as HH.
  assert (HND : ~ In NUL (drop_delims s)) by (intro X; apply HN; apply drop_delims_in; auto).
  assert (LW : length s = length w + length (drop_delims s)) by (rewrite EW at 1; apply app_length).
  assert (EBUF : pre ++ s ++ NUL :: post = (pre ++ w) ++ drop_delims s ++ NUL :: post)
    by (rewrite <- app_assoc; f_equal; rewrite app_assoc, <- EW; reflexivity).
  rewrite <- app_length.
  rewrite EBUF. set (pre' := pre ++ w) in *.
  destruct (drop_delims s) as [|c t] eqn:ED.
  { cbn [app]. rewrite rd_at. cbn [bind]. change (is_nul NUL) with true. reflexivity. }
  cbn [app]. rewrite rd_at. cbn [bind].
  assert (EN : is_nul c = false). { apply Ascii.eqb_neq. intros ->. apply HND. left; auto. }
  rewrite EN. cbv iota.
  assert (HNt : ~ In NUL t) by (intro; apply HND; right; auto).
  destruct (Ascii.eqb_spec c c_lbr) as [->|NL].
  - (* bracket *)
    assert (HFF : length t < S (length (pre' ++ c_lbr :: t ++ NUL :: post)))
      by (rewrite !app_length; cbn [length]; rewrite !app_length; lia).
    set (F := S (length (pre' ++ c_lbr :: t ++ NUL :: post))) in *. clearbody F.
    pose proof (bracket_mem_spec (length t) t (pre' ++ [c_lbr]) [] post F ltac:(lia) HFF HNt) as HB.
    pose proof (take_bracket_b (length t) t ltac:(lia)) as HBB.
    pose proof (fun x => take_bracket_in (length t) t x ltac:(lia)) as HBI.
    destruct (take_bracket t) as [a b]. cbn [fst snd] in *.
    destruct HB as (gap' & E & L & G & LB). specialize (G eq_refl).
    cbn [app length] in E. rewrite Nat.add_0_r in E. rewrite snoc_len in E.
    rewrite <- (app_snoc _ pre' c_lbr (t ++ NUL :: post)) in E. rewrite E. cbn [bind].
    assert (HNa : ~ In NUL a) by (intro X; apply HNt, HBI; auto).
    assert (HNb : ~ In NUL b) by (intro X; apply HNt, HBI; auto).
    (* the terminator written at [to] *)
    assert (EXT : forall b', exists gap2, length gap2 = length gap' /\ (gap' <> [] -> exists g, gap2 = NUL :: g) /\
        (if (S (length pre') + length a =? S (length pre') + length a + length gap')%nat
         then Ok ((pre' ++ [c_lbr]) ++ a ++ gap' ++ b')
         else wr ((pre' ++ [c_lbr]) ++ a ++ gap' ++ b') (S (length pre') + length a) NUL)
        = Ok (((pre' ++ [c_lbr]) ++ a ++ gap2) ++ b')).
    { intro b'. destruct gap' as [|g gap'].
      - exists []. simpl. rewrite Nat.add_0_r, Nat.eqb_refl, app_nil_r. split; auto. split; [congruence|]. rewrite <- ?app_assoc. reflexivity.
      - exists (NUL :: gap'). split; auto. split; [eauto|].
        replace (S (length pre') + length a =? S (length pre') + length a + length (g :: gap')) with false
          by (symmetry; apply Nat.eqb_neq; simpl; lia).
        replace (S (length pre') + length a) with (length ((pre' ++ [c_lbr]) ++ a)) by (rewrite !app_length; simpl; lia).
        rewrite app_assoc. cbn [app]. rewrite wr_at. rewrite <- ?app_assoc. reflexivity. }
    destruct (EXT (b ++ NUL :: post)) as (gap2 & EL2 & EG2 & EW2). rewrite EW2. cbn [bind].
    replace (S (length pre') + length a + length gap') with (length ((pre' ++ [c_lbr]) ++ a ++ gap2))
      by (rewrite !app_length; simpl; lia).
    set (q := (pre' ++ [c_lbr]) ++ a ++ gap2) in *.
    destruct b as [|x b].
    + (* unclosed bracket *)
      cbn [app]. rewrite rd_at. cbn [bind].
      change (is_nul NUL) with true. cbv iota. cbn [bind]. rewrite rd_at. cbn [bind].
      change (is_nul NUL) with true. cbv iota. cbn [next_of].
      destruct gap2 as [|g gap2].
      * exists (w ++ [c_lbr]), post. split; auto. split.
        -- lens.
        -- unfold q, pre'. rewrite app_nil_r. rewrite !app_length. apply okn; [|cbn [length]; lia].
           rewrite <- ?app_assoc. reflexivity.
      * assert (g = NUL) as ->. { destruct EG2 as [g' E']; [intros ->; discriminate|]. congruence. }
        exists (w ++ [c_lbr]), (gap2 ++ NUL :: post). split; auto. split.
        -- lens.
        -- unfold q, pre'. rewrite !app_length. apply okn; [|cbn [length]; lia].
           rewrite <- ?app_assoc. reflexivity.
    + subst x. cbn [app]. rewrite rd_at. cbn [bind].
      change (is_nul c_rbr) with false. cbv iota. rewrite wr_at. cbn [bind].
      assert (ERD : rd (q ++ NUL :: b ++ NUL :: post) (S (length q)) = Ok (match b with y :: _ => y | [] => NUL end)).
      { rewrite app_snoc. rewrite <- snoc_len with (x := NUL). destruct b; apply rd_at. }
      rewrite ERD. cbn [bind].
      assert (EQB : exists v, q ++ NUL :: b ++ NUL :: post = pre ++ (w ++ [c_lbr]) ++ a ++ NUL :: v ++ b ++ NUL :: post /\
                   length (a ++ NUL :: v) = length (a ++ gap2 ++ [NUL])).
      { unfold q, pre'. destruct gap2 as [|g gap2].
        - exists []. split; [|simpl; auto]. rewrite <- ?app_assoc. reflexivity.
        - assert (g = NUL) as ->. { destruct EG2 as [g' E']; [intros ->; discriminate|]. congruence. }
          exists (gap2 ++ [NUL]). split; [|reflexivity]. rewrite <- ?app_assoc. cbn [app]. rewrite <- ?app_assoc. reflexivity. }
      destruct EQB as (v & EQ1 & EQ2). rewrite EQ1.
      assert (LQ : length q = length pre + length w + 1 + length a + length gap2).
      { unfold q, pre'. rewrite !app_length. simpl. lia. }
      assert (LG : length gap2 = length gap') by auto.
      destruct b as [|y b].
      * cbn [next_of]. exists (w ++ [c_lbr]), (v ++ NUL :: post). split; auto. split.
        -- lens.
        -- unfold pre'. rewrite !app_length. cbn [length]. change (is_nul NUL) with true. cbv iota. apply okn; [rewrite <- ?app_assoc; reflexivity|lia].
      * cbn [next_of]. exists (w ++ [c_lbr]), v. split; auto.
        assert (ENy : is_nul y = false). { apply Ascii.eqb_neq. intros ->. apply HNb. right; left; auto. }
        rewrite ENy. split; [|split; [discriminate|split; [intro; apply HNb; right; auto|split]]].
        -- lens.
        -- simpl in *. lia.
        -- apply oks.
           ++ rewrite <- ?app_assoc; reflexivity.
           ++ unfold pre'. rewrite !app_length. simpl. lia.
           ++ rewrite LQ. clear - EQ2. lens.
  - (* plain word *)
    pose proof (cspan_mem_spec (c :: t) pre' post (S (length (pre' ++ (c :: t) ++ NUL :: post)))
       ltac:(rewrite !app_length; lia) HND) as HC.
    pose proof (take_word_b (c :: t)) as HTB.
    destruct (take_word (c :: t)) as [a b]. cbn [snd] in HTB. destruct HC as [ET HC].
    cbn [app] in HC. rewrite HC. cbn [bind].
    assert (HNa : ~ In NUL a) by (intro X; apply HND; rewrite ET; apply in_or_app; auto).
    assert (HNb : ~ In NUL b) by (intro X; apply HND; rewrite ET; apply in_or_app; auto).
    assert (EB2 : pre' ++ c :: t ++ NUL :: post = (pre' ++ a) ++ b ++ NUL :: post).
    { rewrite <- app_assoc. f_equal. rewrite app_assoc, <- ET. reflexivity. }
    rewrite EB2. rewrite <- app_length.
    assert (LT : S (length t) = length a + length b) by (rewrite <- app_length, <- ET; reflexivity).
    destruct b as [|x b].
    + cbn [app next_of]. rewrite rd_at. cbn [bind]. change (is_nul NUL) with true. cbv iota. cbn [bind]. rewrite rd_at. cbn [bind].
      change (is_nul NUL) with true. cbv iota.
      exists w, post. split; auto. split.
      * lens.
      * unfold pre'. rewrite !app_length. apply okn; [|lia]. rewrite <- ?app_assoc. reflexivity.
    + cbn [app]. rewrite rd_at. cbn [bind].
      assert (ENx : is_nul x = false). { apply Ascii.eqb_neq. intros ->. apply HNb. left; auto. }
      rewrite ENx. rewrite wr_at. cbn [bind].
      assert (ERD : rd ((pre' ++ a) ++ NUL :: b ++ NUL :: post) (S (length (pre' ++ a))) = Ok (match b with y :: _ => y | [] => NUL end)).
      { rewrite app_snoc. rewrite <- snoc_len with (x := NUL). destruct b; apply rd_at. }
      rewrite ERD. cbn [bind].
      destruct b as [|y b]; cbn [next_of].
      * change (is_nul NUL) with true. cbv iota. exists w, (NUL :: post). split; auto. split.
        -- lens.
        -- unfold pre'. rewrite !app_length. apply okn; [|lia]. rewrite <- ?app_assoc. reflexivity.
      * assert (ENy : is_nul y = false). { apply Ascii.eqb_neq. intros ->. apply HNb. right; left; auto. }
        rewrite ENy. exists w, []. split; auto.
        split; [|split; [discriminate|split; [intro; apply HNb; right; auto|split]]].
        -- lens.
        -- simpl in *. lia.
        -- unfold pre'. cbn [app]. apply oks.
           ++ rewrite <- ?app_assoc. reflexivity.
           ++ rewrite !app_length. lia.
           ++ rewrite !app_length. simpl. lia.
Qed.

(** ** All tokens *)

Lemma tokenize_shorter : forall s t s', tokenize s = Some (t, Some s') -> length s' < length s.
Proof.
  intros s t s' H. unfold tokenize in H.
  assert (LD : length (drop_delims s) <= length s).
  { clear. induction s as [|c s IH]; simpl; auto. destruct (is_delim c); simpl; lia. }
  destruct (drop_delims s) as [|c u] eqn:ED; [discriminate|].
  assert (LB : forall n s, length s <= n -> length (snd (take_bracket s)) <= length s).
  { clear. induction n as [|n IH]; intros s H; (destruct s as [|c s]; [simpl; lia|]); [simpl in H; lia|].
    cbn [take_bracket]. destruct (Ascii.eqb c c_rbr); [simpl; lia|].
    destruct (Ascii.eqb c c_bslash).
    - destruct s as [|d s]; [simpl; lia|]. destruct (Ascii.eqb d c_rbr).
      + specialize (IH s ltac:(simpl in H; lia)). destruct (take_bracket s); simpl in *. lia.
      + specialize (IH (d :: s) ltac:(simpl in *; lia)). destruct (take_bracket (d :: s)); simpl in *. lia.
    - specialize (IH s ltac:(simpl in H; lia)). destruct (take_bracket s); simpl in *. lia. }
  assert (LT : forall s, length (snd (take_word s)) <= length s).
  { clear. induction s as [|c s IH]; simpl; auto. destruct (is_delim c); simpl; auto. destruct (take_word s); simpl in *. lia. }
  assert (LN : forall r x, next_of r = Some x -> length x < length r).
  { clear. intros [|a [|b r]] x H; simpl in H; try discriminate. inversion H; subst. simpl. lia. }
  destruct (Ascii.eqb c c_lbr).
  - specialize (LB (length u) u ltac:(lia)). destruct (take_bracket u) as [a b]. inversion H; subst.
    apply LN in H2. simpl in *. lia.
  - specialize (LT (c :: u)). destruct (take_word (c :: u)) as [a b]. inversion H; subst. apply LN in H2. simpl in *. lia.
Qed.

Lemma tokens_fuel : forall f g s, length s < f -> length s < g -> tokens f (Some s) = tokens g (Some s).
Proof.
  induction f as [|f IH]; intros g s HF HG; [lia|]. destruct g as [|g]; [lia|].
  cbn [tokens tokenize_next]. destruct (tokenize s) as [[t [s'|]]|] eqn:E; auto.
  - pose proof (tokenize_shorter _ _ _ E). f_equal. apply IH; lia.
  - destruct f, g; reflexivity.
Qed.

Definition held (pre : list ascii) (i : nat) (a : cstr) : Prop :=
  exists x y, pre = x ++ a ++ NUL :: y /\ length x = i /\ ~ In NUL a.

Lemma held_string : forall pre post i a, held pre i a -> string_at (pre ++ post) i a.
Proof.
  intros pre post i a (x & y & -> & E & N). exists x, (y ++ post). split; auto.
  rewrite <- ?app_assoc. cbn [app]. reflexivity.
Qed.

Lemma held_grow : forall pre post i a, held pre i a -> held (pre ++ post) i a.
Proof. intros. apply held_string; auto. Qed.

Lemma mkargv_loop_spec : forall fuel s pre post slots args cap,
  S (length s) < fuel -> ~ In NUL s -> Forall2 (held pre) slots args ->
  length slots + length s <= cap -> (Z.of_nat cap <= INT_MAX)%Z ->
  exists buf slots', mkargv_loop fuel cap (pre ++ s ++ NUL :: post) (Some (length pre)) slots = Ok (Some (buf, slots')) /\
    Forall2 (string_at buf) slots' (rev (tokens fuel (Some s)) ++ args) /\ length slots' <= cap /\
    length buf = length (pre ++ s ++ NUL :: post).
Proof.
  induction fuel as [|fuel IH]; intros s pre post slots args cap HF HN HH HC HI; [lia|].
  cbn [mkargv_loop tokens tokenize_next].
  pose proof (tokenize_mem_spec pre s post HN) as HT.
  destruct (tokenize s) as [[t [s'|]]|] eqn:ET.
  - destruct HT as (u & v & HNt & HL & HNE & HNs & HLs & HE). rewrite HE. cbn [bind].
    replace (length slots <? cap) with true by (symmetry; apply Nat.ltb_lt; lia).
    replace (Z.of_nat (length slots) =? INT_MAX)%Z with false by (symmetry; apply Z.eqb_neq; lia).
    destruct (IH s' (pre ++ u ++ t ++ NUL :: v) post (length pre + length u :: slots) (t :: args) cap) as (buf & sl & E & F & L & LB).
    + lia.
    + auto.
    + constructor.
      * exists (pre ++ u), v. split; [rewrite <- ?app_assoc; reflexivity|]. split; auto. apply app_length.
      * clear -HH. induction HH; constructor; auto. apply held_grow; auto.
    + simpl. lia.
    + auto.
    + exists buf, sl. rewrite app_length in E.
      replace (pre ++ u ++ t ++ NUL :: v ++ s' ++ NUL :: post) with ((pre ++ u ++ t ++ NUL :: v) ++ s' ++ NUL :: post)
        by (rewrite <- ?app_assoc; cbn [app]; rewrite <- ?app_assoc; reflexivity).
      split; [exact E|]. split; [|split; auto].
      * simpl. rewrite <- app_assoc. exact F.
      * rewrite LB. rewrite (app_length pre (s ++ _)), <- HL. lens.
  - destruct HT as (u & v & HNt & HL & HE). rewrite HE. cbn [bind].
    assert (s <> []) by (intros ->; discriminate).
    assert (1 <= length s) by (destruct s; [congruence|simpl; lia]).
    replace (length slots <? cap) with true by (symmetry; apply Nat.ltb_lt; lia).
    replace (Z.of_nat (length slots) =? INT_MAX)%Z with false by (symmetry; apply Z.eqb_neq; lia).
    destruct fuel as [|fuel]; [lia|]. cbn [mkargv_loop tokens tokenize_next].
    do 2 eexists. split; [reflexivity|]. split; [|split; [simpl; lia|]].
    + simpl. constructor.
      * exists (pre ++ u), v. split; [rewrite <- ?app_assoc; reflexivity|]. split; auto. apply app_length.
      * clear -HH. induction HH; constructor; auto. apply held_string; auto.
    + rewrite !(app_length pre), <- HL. reflexivity.
  - rewrite HT. cbn [bind]. do 2 eexists. split; [reflexivity|]. simpl. split; [|split; [lia|auto]].
    clear -HH. induction HH; constructor; auto. apply held_string; auto.
Qed.

Lemma Forall2_rev_r : forall A B (R : A -> B -> Prop) a l, Forall2 R a (rev l) -> Forall2 R (rev a) l.
Proof.
  intros A B R a l H. rewrite <- (rev_involutive l).
  induction H as [|x y a b H F IH]; simpl; [constructor|]. apply Forall2_app; auto.
Qed.

Lemma mkargv_mem_spec : forall s : cstr, s <> [] -> ~ In NUL s -> (Z.of_nat (length s) <= INT_MAX)%Z ->
  exists buf argv, mkargv_mem false s = Ok (Some (buf, argv)) /\ Forall2 (string_at buf) argv (mkargv s) /\
    length argv <= length s /\ length buf = S (length s).
Proof.
  intros s HNE HN HI. unfold mkargv_mem. destruct s as [|c t] eqn:ES; [congruence|]. rewrite <- ES in *. clear ES HNE.
  destruct (mkargv_loop_spec (S (S (length s))) s [] [] [] [] (length s)) as (buf & sl & E & F & L & LB); auto; try lia.
  cbn [app length] in E. rewrite E. cbn [bind]. exists buf, (rev sl). split; auto. rewrite app_nil_r in F.
  split; [|rewrite rev_length; split; auto; rewrite LB; simpl; rewrite app_length; simpl; lia].
  apply Forall2_rev_r. assert (EM : mkargv s = tokens (S (S (length s))) (Some s)) by (apply tokens_fuel; lia).
  rewrite EM. exact F.
Qed.

(** ** Written argument lists *)

Lemma blank_char_delim : forall c, blank_char c <-> is_delim c = true.
Proof.
  intro c. unfold blank_char, is_delim. rewrite !orb_true_iff, !Ascii.eqb_eq. unfold c_space, c_nl, c_tab. tauto.
Qed.

Lemma drop_delims_blank : forall w s, Forall blank_char w -> drop_delims (w ++ s) = drop_delims s.
Proof. intros w s H. induction H as [|c w Hc H IH]; simpl; auto. apply blank_char_delim in Hc. rewrite Hc. auto. Qed.

Lemma take_word_exact : forall a rest, (forall c, In c a -> ~ blank_char c) ->
  match rest with [] => True | c :: _ => blank_char c end -> take_word (a ++ rest) = (a, rest).
Proof.
  induction a as [|c a IH]; intros rest HA HR; simpl.
  - destruct rest as [|c rest]; auto. simpl. apply blank_char_delim in HR. rewrite HR. reflexivity.
  - destruct (is_delim c) eqn:E.
    + exfalso. apply (HA c); [left; auto|]. apply blank_char_delim; auto.
    + rewrite (IH rest); auto. intros; apply HA; right; auto.
Qed.

Lemma take_bracket_exact : forall a rest, last a NUL <> c_bslash -> take_bracket (escape a ++ c_rbr :: rest) = (a, c_rbr :: rest).
Proof.
  induction a as [|c a IH]; intros rest HL; [reflexivity|].
  assert (HL2 : a <> [] -> last a NUL <> c_bslash) by (intro; destruct a; [congruence|exact HL]).
  assert (IH2 : take_bracket (escape a ++ c_rbr :: rest) = (a, c_rbr :: rest)).
  { destruct a; [reflexivity|]. apply IH. apply HL2. discriminate. }
  cbn [escape]. destruct (Ascii.eqb_spec c "]"%char) as [->|N].
  - cbn [app take_bracket]. change (Ascii.eqb (chr 92) c_rbr) with false. change (Ascii.eqb (chr 92) c_bslash) with true.
    change (Ascii.eqb "]" c_rbr) with true. cbv iota. rewrite IH2. reflexivity.
  - cbn [app take_bracket]. destruct (Ascii.eqb_spec c c_rbr); [contradiction|].
    destruct (Ascii.eqb_spec c c_bslash) as [->|NB]; [|rewrite IH2; reflexivity].
    assert (NE : a <> []) by (intros ->; apply HL; reflexivity).
    destruct a as [|d a]; [congruence|]. revert IH2. cbn [escape]. destruct (Ascii.eqb_spec d "]"%char) as [->|N2]; cbn [app]; intro IH2.
    + change (Ascii.eqb (chr 92) c_rbr) with false. cbv iota. rewrite IH2. reflexivity.
    + destruct (Ascii.eqb_spec d c_rbr); [contradiction|]. rewrite IH2. reflexivity.
Qed.

Lemma tokens_written : forall s args, written s args -> forall fuel, length s < fuel -> tokens fuel (Some s) = args.
Proof.
  intros s args H. induction H as [w HW|w a rest args HW HA HB HH HR HWr IH|w a rest args HW HL HWr IH]; intros fuel HF.
  - destruct fuel; [lia|]. cbn [tokens tokenize_next]. unfold tokenize.
    rewrite <- (app_nil_r w), drop_delims_blank by auto. reflexivity.
  - destruct fuel; [lia|]. cbn [tokens tokenize_next]. unfold tokenize. rewrite drop_delims_blank by auto.
    destruct a as [|c a]; [congruence|]. simpl in HH.
    assert (EC : is_delim c = false).
    { destruct (is_delim c) eqn:E; auto. exfalso. apply (HB c); [left; auto|]. apply blank_char_delim; auto. }
    cbn [app drop_delims]. rewrite EC. destruct (Ascii.eqb_spec c c_lbr); [contradiction|].
    rewrite app_comm_cons. rewrite take_word_exact by auto. f_equal.
    rewrite app_length in HF. simpl in HF. rewrite app_length in HF.
    destruct rest as [|x [|y rest]]; cbn [next_of].
    + destruct fuel; simpl; rewrite <- (IH 1) by (simpl; lia); reflexivity.
    + (* one blank left *)
      assert (args = []) as ->. { rewrite <- (IH 2) by (simpl; lia). simpl in HR. cbn [tokens tokenize_next]. unfold tokenize. cbn [drop_delims].
        apply blank_char_delim in HR. rewrite HR. reflexivity. }
      destruct fuel; reflexivity.
    + rewrite <- (IH fuel) by (simpl in *; lia). destruct fuel; auto. cbn [tokens tokenize_next]. unfold tokenize. cbn [drop_delims].
      apply blank_char_delim in HR. rewrite HR. reflexivity.
  - destruct fuel; [lia|]. cbn [tokens tokenize_next]. unfold tokenize. rewrite drop_delims_blank by auto.
    cbn [app drop_delims]. change (is_delim "[") with false. cbv iota. change (Ascii.eqb "[" c_lbr) with true. cbv iota.
    change "]"%char with c_rbr. rewrite take_bracket_exact by auto. f_equal.
    rewrite app_length in HF. simpl in HF. rewrite app_length in HF. simpl in HF.
    destruct rest as [|y rest]; cbn [next_of].
    + destruct fuel; simpl; rewrite <- (IH 1) by (simpl; lia); reflexivity.
    + apply IH. simpl in *. lia.
Qed.
