(** The configuration lines of pam_namespace: words, variables, methods, mount options, and which entries come out. *)
From Coq Require Import String Ascii List Arith ZArith Bool Lia.
From Verif Require Import Base Str_Model Str_Facts Opt_Model Opt_Facts Nsopen_Model Nsconf_Model.
Import ListNotations.

(** ** Words *)
(** Text and the characters it stands for: characters, escapes and quoted parts. *)
Inductive wtext : cstr -> cstr -> Prop :=
| wt_nil : wtext [] []
| wt_char : forall c w v, isspace c = false -> c <> chr 34 -> c <> chr 92 -> wtext w v -> wtext (c :: w) (c :: v)
| wt_escape : forall c x w v, (c = "n"%char /\ x = chr 10 \/ c = "t"%char /\ x = chr 9 \/ c = "b"%char /\ x = chr 8 \/ c <> "n"%char /\ c <> "t"%char /\ c <> "b"%char /\ x = c) ->
    wtext w v -> wtext (chr 92 :: c :: w) (x :: v)
| wt_quoted : forall q w v, ~ In (chr 34) q -> wtext w v -> wtext (chr 34 :: q ++ chr 34 :: w)%list (q ++ v)%list.
(** The words of a line; a quote that is not closed and a backslash are allowed at its end. *)
Inductive qwords : cstr -> list cstr -> Prop :=
| qw_none : forall p, forallb isspace p = true -> qwords p []
| qw_more : forall p w v x s ws, forallb isspace p = true -> wtext w v -> w <> [] -> isspace x = true -> qwords s ws -> qwords (p ++ w ++ x :: s)%list (v :: ws)
| qw_last : forall p w v, forallb isspace p = true -> wtext w v -> w <> [] -> qwords (p ++ w)%list [v]
| qw_open : forall p w v q, forallb isspace p = true -> wtext w v -> ~ In (chr 34) q -> qwords (p ++ w ++ chr 34 :: q)%list [(v ++ q)%list]
| qw_backslash : forall p w v, forallb isspace p = true -> wtext w v -> qwords (p ++ w ++ [chr 92])%list [(v ++ [chr 92])%list].

Lemma unescape_iff : forall c x, unescape c = x <->
  c = "n"%char /\ x = chr 10 \/ c = "t"%char /\ x = chr 9 \/ c = "b"%char /\ x = chr 8 \/ c <> "n"%char /\ c <> "t"%char /\ c <> "b"%char /\ x = c.
Proof.
  intros c x. unfold unescape. destruct (Ascii.eqb_spec c "n"%char) as [->|D1]; [split; [intros <-; left; split; reflexivity|]|].
  { intros [[_ ->]|[[X _]|[[X _]|(X & _)]]]; try reflexivity; try discriminate; congruence. }
  destruct (Ascii.eqb_spec c "t"%char) as [->|D2]; [split; [intros <-; right; left; split; reflexivity|]|].
  { intros [[X _]|[[_ ->]|[[X _]|(_ & X & _)]]]; try reflexivity; try discriminate; congruence. }
  destruct (Ascii.eqb_spec c "b"%char) as [->|D3]; [split; [intros <-; right; right; left; split; reflexivity|]|].
  { intros [[X _]|[[X _]|[[_ ->]|(_ & _ & X & _)]]]; try reflexivity; try discriminate; congruence. }
  split; [intros <-; auto 8|]. intros [[X _]|[[X _]|[[X _]|(_ & _ & _ & ->)]]]; congruence.
Qed.
Lemma out_ok : forall size c b, length b < size -> out size c b = Ok (b ++ [c])%list.
Proof. intros size c b L. unfold out. apply Nat.ltb_lt in L. rewrite L. reflexivity. Qed.
Lemma wtext_length : forall w v, wtext w v -> length v <= length w.
Proof. intros w v H. induction H; cbn [length]; rewrite ?app_length; cbn [length]; lia. Qed.
Lemma wtext_nul : forall w v, wtext w v -> ~ In NUL w -> ~ In NUL v.
Proof.
  intros w v H. induction H as [|c w v Sp Q B H IH|c x w v X H IH|q w v N H IH]; intros Nn I.
  - exact I.
  - destruct I as [Ec|I]; [apply Nn; left; exact Ec|]. apply IH; [|exact I]. intro J. apply Nn. right. exact J.
  - destruct I as [Ec|I]; [|apply IH; [|exact I]; intro J; apply Nn; right; right; exact J].
    destruct X as [[_ X]|[[_ X]|[[_ X]|(_ & _ & _ & X)]]]; rewrite X in Ec; try discriminate Ec. apply Nn. right. left. exact Ec.
  - apply in_app_or in I. destruct I as [I|I].
    + apply Nn. right. apply in_or_app. left. exact I.
    + apply IH; [|exact I]. intro J. apply Nn. right. apply in_or_app. right. right. exact J.
Qed.
Lemma loop_quoted : forall q size s a b, ~ In (chr 34) q -> length b + length q <= size ->
  argv_loop size (q ++ s)%list Quoted a b = argv_loop size s Quoted a (b ++ q)%list.
Proof.
  induction q as [|c q IH]; intros size s a b N L; [rewrite app_nil_r; reflexivity|].
  cbn [app argv_loop]. destruct (Ascii.eqb_spec c quote) as [->|_]; [exfalso; apply N; left; reflexivity|].
  cbn [length] in L. rewrite out_ok by lia. cbn [bind]. rewrite IH; [|intro I; apply N; right; exact I|rewrite app_length; cbn; lia].
  rewrite <- app_assoc. reflexivity.
Qed.
Lemma loop_token : forall w v, wtext w v -> forall size s a b, length b + length w <= size ->
  argv_loop size (w ++ s)%list Token a b = argv_loop size s Token a (b ++ v)%list.
Proof.
  intros w v H. induction H as [|c w v Sp Q B H IH|c x w v X H IH|q w v N H IH]; intros size s a b L.
  - rewrite app_nil_r. reflexivity.
  - cbn [app argv_loop]. rewrite Sp. destruct (Ascii.eqb_spec c quote) as [E|_]; [exfalso; apply Q; exact E|]. destruct (Ascii.eqb_spec c c_bslash) as [E|_]; [exfalso; apply B; exact E|].
    cbn [length] in L. rewrite out_ok by lia. cbn [bind]. rewrite IH by (rewrite app_length; cbn [length]; lia). rewrite <- app_assoc. reflexivity.
  - apply unescape_iff in X. cbn [app argv_loop]. change (isspace (chr 92)) with false. change (Ascii.eqb (chr 92) quote) with false.
    change (Ascii.eqb (chr 92) c_bslash) with true. cbv iota. rewrite X. cbn [length] in L. rewrite out_ok by lia. cbn [bind].
    rewrite IH by (rewrite app_length; cbn [length]; lia). rewrite <- app_assoc. reflexivity.
  - cbn [app argv_loop]. change (isspace (chr 34)) with false. change (Ascii.eqb (chr 34) quote) with true. cbv iota.
    rewrite <- app_assoc. cbn [length] in L. rewrite app_length in L. cbn [length] in L. rewrite loop_quoted by (exact N || lia).
    cbn [app argv_loop]. change (Ascii.eqb (chr 34) quote) with true. replace (match isspace (chr 34) with true => Quoted | false => Quoted end) with Quoted by (destruct (isspace (chr 34)); reflexivity).
    rewrite IH by (rewrite app_length; lia). rewrite <- app_assoc. reflexivity.
Qed.
Lemma loop_white : forall p size s a b, forallb isspace p = true -> argv_loop size (p ++ s)%list White a b = argv_loop size s White a b.
Proof.
  induction p as [|c p IH]; intros size s a b H; [reflexivity|]. cbn [forallb] in H. apply andb_true_iff in H. destruct H as [C H].
  cbn [app argv_loop]. rewrite C. apply IH. exact H.
Qed.
Lemma loop_begin : forall c size s a b, isspace c = false -> argv_loop size (c :: s) White a b = argv_loop size (c :: s) Token (length b :: a) b.
Proof. intros c size s a b H. cbn [argv_loop]. rewrite H. reflexivity. Qed.
Lemma wtext_begin : forall w v, wtext w v -> w <> [] -> exists c w', w = c :: w' /\ isspace c = false.
Proof. intros w v H N. destruct H; [congruence|eexists; eexists; split; [reflexivity|assumption]|eexists; eexists; split; reflexivity|eexists; eexists; split; reflexivity]. Qed.

(** The words that can be read at the offsets. *)
Definition reads (argv : list nat) (b : list ascii) (vs : list cstr) : Prop :=
  Forall2 (fun o v => exists pre suf, b = (pre ++ v ++ NUL :: suf)%list /\ length pre = o /\ ~ In NUL v) argv vs.
Lemma reads_more : forall argv b vs x, reads argv b vs -> reads argv (b ++ x)%list vs.
Proof.
  intros argv b vs x H. induction H as [|o v argv vs (pre & suf & E & L & N) H IH]; constructor; [|exact IH].
  exists pre, (suf ++ x)%list. split; [rewrite E, <- !app_assoc; reflexivity|auto].
Qed.
Lemma cut_word : forall v s, ~ In NUL v -> cut (v ++ NUL :: s)%list = v.
Proof.
  induction v as [|c v IH]; intros s N; [reflexivity|]. cbn [app cut]. destruct (Ascii.eqb_spec c NUL) as [->|D]; [exfalso; apply N; left; reflexivity|].
  f_equal. apply IH. intro I. apply N. right. exact I.
Qed.
Lemma reads_words : forall argv b vs, reads argv b vs -> map (fun o => cut (skipn o b)) argv = vs.
Proof.
  intros argv b vs H. induction H as [|o v argv vs (pre & suf & E & L & N) H IH]; [reflexivity|]. cbn [map]. rewrite IH. f_equal.
  rewrite E, <- L, skipn_app, skipn_all, Nat.sub_diag. cbn [app skipn]. apply cut_word. exact N.
Qed.
(** What comes of a line from STATE_WHITESPACE on. *)
Definition finish (size : nat) (r : res (pstate * list nat * list ascii)) (vs : list cstr) : Prop :=
  exists st a b b', r = Ok (st, a, b) /\ (match st with White => Ok b | _ => out size NUL b end) = Ok b' /\ reads a b' vs.
Lemma finish_token : forall size a b b0 v vs, reads a b0 vs -> length (b0 ++ v)%list < size -> b = (b0 ++ v)%list -> ~ In NUL v ->
  finish size (Ok (Token, length b0 :: a, b)) (v :: vs).
Proof.
  intros size a b b0 v vs R L -> N. exists Token, (length b0 :: a), (b0 ++ v)%list, ((b0 ++ v) ++ [NUL])%list. split; [reflexivity|]. split; [apply out_ok; exact L|].
  constructor; [exists b0, []; rewrite <- app_assoc; auto|]. rewrite <- app_assoc. apply reads_more. exact R.
Qed.
Lemma qwords_loop : forall s ws, qwords s ws -> ~ In NUL s -> forall size a b vs, length b + length s < size -> reads a b vs ->
  finish size (argv_loop size s White a b) (rev ws ++ vs)%list.
Proof.
  intros s ws H. induction H as [p P|p w v x s ws P W Nw X H IH|p w v P W Nw|p w v q P W Nq|p w v P W]; intros Nn size a b vs L R.
  - rewrite <- (app_nil_r p). rewrite loop_white by exact P. exists White, a, b, b. auto.
  - rewrite loop_white by exact P. destruct (wtext_begin _ _ W Nw) as (c & w' & E & C). rewrite !app_length in L. cbn [length] in L.
    assert (Nv : ~ In NUL v) by (apply (wtext_nul _ _ W); intro I; apply Nn; apply in_or_app; right; apply in_or_app; left; exact I).
    assert (Q : argv_loop size (w ++ x :: s)%list White a b = argv_loop size s White (length b :: a) ((b ++ v) ++ [NUL])%list).
    { rewrite E. cbn [app]. rewrite loop_begin by exact C. change (c :: w' ++ x :: s)%list with ((c :: w') ++ x :: s)%list. rewrite <- E.
      rewrite (loop_token _ _ W) by lia. cbn [argv_loop]. rewrite X. pose proof (wtext_length _ _ W). rewrite out_ok by (rewrite app_length; lia). reflexivity. }
    rewrite Q. cbn [rev]. rewrite <- (app_assoc (rev ws)). cbn [app]. pose proof (wtext_length _ _ W). apply IH.
    + intro I. apply Nn. apply in_or_app. right. apply in_or_app. right. right. exact I.
    + rewrite !app_length. cbn [length]. lia.
    + constructor; [exists b, []; rewrite <- app_assoc; auto|]. rewrite <- app_assoc. apply reads_more. exact R.
  - rewrite loop_white by exact P. destruct (wtext_begin _ _ W Nw) as (c & w' & E & C). rewrite app_length in L. pose proof (wtext_length _ _ W).
    rewrite E. rewrite loop_begin by exact C. rewrite <- E. rewrite <- (app_nil_r w). rewrite (loop_token _ _ W) by lia. cbn [argv_loop].
    apply finish_token; [exact R|rewrite app_length; lia|reflexivity|]. apply (wtext_nul _ _ W). intro I. apply Nn. apply in_or_app. right. exact I.
  - rewrite loop_white by exact P. rewrite !app_length in L. cbn [length] in L. pose proof (wtext_length _ _ W).
    assert (Z0 : argv_loop size (w ++ chr 34 :: q)%list White a b = argv_loop size (w ++ chr 34 :: q)%list Token (length b :: a) b).
    { destruct w as [|c w]; [reflexivity|]. destruct (wtext_begin _ _ W) as (c' & w' & E & C); [discriminate|]. injection E as <- <-. apply loop_begin. exact C. }
    rewrite Z0, (loop_token _ _ W) by lia. cbn [argv_loop]. change (isspace (chr 34)) with false. change (Ascii.eqb (chr 34) quote) with true. cbv iota.
    rewrite <- (app_nil_r q) at 1. rewrite loop_quoted by (exact Nq || rewrite app_length; lia). cbn [argv_loop].
    assert (Nv : ~ In NUL (v ++ q)%list).
    { intro I. apply in_app_or in I. destruct I as [I|I]; [apply (wtext_nul _ _ W) in I; [exact I|]; intro J; apply Nn; apply in_or_app; right; apply in_or_app; left; exact J|].
      apply Nn. apply in_or_app. right. apply in_or_app. right. right. exact I. }
    exists Quoted, (length b :: a), ((b ++ v) ++ q)%list, (((b ++ v) ++ q) ++ [NUL])%list. split; [reflexivity|]. split; [apply out_ok; rewrite !app_length; lia|].
    cbn [rev app]. constructor; [exists b, []; rewrite <- !app_assoc; auto|]. rewrite <- !app_assoc. apply reads_more. exact R.
  - rewrite loop_white by exact P. rewrite !app_length in L. cbn [length] in L. pose proof (wtext_length _ _ W).
    assert (Z0 : argv_loop size (w ++ [chr 92])%list White a b = argv_loop size (w ++ [chr 92])%list Token (length b :: a) b).
    { destruct w as [|c w]; [reflexivity|]. destruct (wtext_begin _ _ W) as (c' & w' & E & C); [discriminate|]. injection E as <- <-. apply loop_begin. exact C. }
    rewrite Z0, (loop_token _ _ W) by lia. cbn [argv_loop]. change (isspace (chr 92)) with false. change (Ascii.eqb (chr 92) quote) with false.
    change (Ascii.eqb (chr 92) c_bslash) with true. cbv iota. rewrite out_ok by (rewrite app_length; lia). cbn [bind rev app].
    apply finish_token; [exact R|rewrite !app_length; cbn; lia|rewrite app_assoc; reflexivity|]. intro I. apply in_app_or in I. destruct I as [I|[I|[]]]; [|discriminate I].
    apply (wtext_nul _ _ W) in I; [exact I|]. intro J. apply Nn. apply in_or_app. right. apply in_or_app. left. exact J.
Qed.
Lemma qwords_parse : forall s ws, ~ In NUL s -> qwords s ws -> argv_parse s = Ok ws.
Proof.
  intros s ws N H. destruct (qwords_loop s ws H N (S (length s)) [] [] [] ltac:(cbn; lia) (Forall2_nil _)) as (st & a & b & b' & E & F & R).
  unfold argv_parse. rewrite E. cbn [bind]. rewrite F. cbn [bind]. apply reads_words in R. rewrite R, app_nil_r, rev_involutive. reflexivity.
Qed.
Lemma token_cases : forall n s, length s <= n ->
  (exists w v x r, s = (w ++ x :: r)%list /\ wtext w v /\ isspace x = true) \/ (exists v, wtext s v) \/
  (exists w v q, s = (w ++ chr 34 :: q)%list /\ wtext w v /\ ~ In (chr 34) q) \/ (exists w v, s = (w ++ [chr 92])%list /\ wtext w v).
Proof.
  induction n as [|n IH]; intros s L.
  { destruct s; [|cbn in L; lia]. right. left. exists []. constructor. }
  destruct s as [|c s]; [right; left; exists []; constructor|]. cbn [length] in L.
  assert (ST : forall h hv r, length r <= n -> (forall w v, wtext w v -> wtext (h ++ w)%list (hv ++ v)%list) ->
    (exists w v x r', (h ++ r = w ++ x :: r')%list /\ wtext w v /\ isspace x = true) \/ (exists v, wtext (h ++ r)%list v) \/
    (exists w v q, (h ++ r = w ++ chr 34 :: q)%list /\ wtext w v /\ ~ In (chr 34) q) \/ (exists w v, (h ++ r = w ++ [chr 92])%list /\ wtext w v)).
  { intros h hv r Lr Hp. destruct (IH r Lr) as [(w & v & x & r' & -> & W & X)|[(v & W)|[(w & v & q & -> & W & N)|(w & v & -> & W)]]].
    - left. exists (h ++ w)%list, (hv ++ v)%list, x, r'. rewrite <- app_assoc. auto.
    - right. left. exists (hv ++ v)%list. auto.
    - right. right. left. exists (h ++ w)%list, (hv ++ v)%list, q. rewrite <- app_assoc. auto.
    - right. right. right. exists (h ++ w)%list, (hv ++ v)%list. rewrite <- app_assoc. auto. }
  destruct (isspace c) eqn:Sp; [left; exists [], [], c, s; split; [reflexivity|split; [constructor|exact Sp]]|].
  destruct (Ascii.eqb_spec c (chr 34)) as [->|D1].
  - destruct (split_at (chr 34) s) as [[q r]|] eqn:E.
    + apply split_at_some in E. destruct E as [-> N]. rewrite app_length in L. cbn [length] in L.
      destruct (ST (chr 34 :: q ++ [chr 34])%list q r) as [X|[X|[X|X]]]; [lia| | | | |];
        try (cbn [app] in X; rewrite <- app_assoc in X; cbn [app] in X; auto).
      intros w v W. cbn [app]. rewrite <- app_assoc. cbn [app]. apply wt_quoted; assumption.
    + apply (proj1 (split_at_none _ _)) in E. right. right. left. exists [], [], s. split; [reflexivity|split; [constructor|exact E]].
  - destruct (Ascii.eqb_spec c (chr 92)) as [->|D2].
    + destruct s as [|c2 s]; [right; right; right; exists [], []; split; [reflexivity|constructor]|]. cbn [length] in L.
      apply (ST [chr 92; c2] [unescape c2] s); [lia|]. intros w v W. cbn [app]. apply wt_escape; [apply unescape_iff; reflexivity|exact W].
    + apply (ST [c] [c] s); [lia|]. intros w v W. cbn [app]. apply wt_char; assumption.
Qed.
Lemma qwords_total : forall n s, length s <= n -> exists ws, qwords s ws.
Proof.
  induction n as [|n IH]; intros s L.
  { destruct s; [|cbn in L; lia]. exists []. constructor. reflexivity. }
  destruct (span isspace s) as [p r] eqn:E. assert (Ep : s = (p ++ r)%list /\ forallb isspace p = true /\ (r = [] \/ exists c r', r = c :: r' /\ isspace c = false)).
  { clear L IH. revert p r E. induction s as [|c s IHs]; intros p r E; cbn [span] in E; [injection E as <- <-; auto|].
    destruct (isspace c) eqn:C.
    - destruct (span isspace s) as [p' r'] eqn:E'. injection E as <- <-. destruct (IHs p' r' eq_refl) as (-> & A & B). cbn [forallb]. rewrite C. auto.
    - injection E as <- <-. split; [reflexivity|]. split; [reflexivity|]. right. eauto. }
  destruct Ep as (-> & P & [->|(c & r' & -> & C)]); [exists []; rewrite app_nil_r; constructor; exact P|].
  rewrite app_length in L. cbn [length] in L.
  destruct (token_cases (S (length r')) (c :: r') ltac:(cbn; lia)) as [(w & v & x & r2 & Q & W & X)|[(v & W)|[(w & v & q & Q & W & N)|(w & v & Q & W)]]].
  - assert (Nw : w <> []) by (intros ->; injection Q as -> _; congruence). assert (length r2 <= n).
    { apply (f_equal (@length ascii)) in Q. rewrite app_length in Q. cbn [length] in Q. lia. }
    destruct (IH r2 H) as [ws Hs]. exists (v :: ws). rewrite Q. apply qw_more; assumption.
  - exists [v]. apply qw_last; [exact P|exact W|discriminate].
  - exists [(v ++ q)%list]. rewrite Q. apply qw_open; assumption.
  - exists [(v ++ [chr 92])%list]. rewrite Q. apply qw_backslash; assumption.
Qed.
(** argv_parse finds exactly the words and stays within its buffer. *)
Theorem ns_words : forall s ws, ~ In NUL s -> (argv_parse s = Ok ws <-> qwords s ws).
Proof.
  intros s ws N. split; [|apply qwords_parse; exact N]. intro H. destruct (qwords_total (length s) s (Nat.le_refl _)) as [ws' Q].
  pose proof (qwords_parse _ _ N Q) as H'. rewrite H in H'. injection H' as <-. exact Q.
Qed.
Lemma argv_parse_total : forall s, ~ In NUL s -> exists ws, argv_parse s = Ok ws /\ qwords s ws.
Proof. intros s N. destruct (qwords_total (length s) s (Nat.le_refl _)) as [ws Q]. exists ws. split; [apply qwords_parse; assumption|exact Q]. Qed.

(** ** Variables *)
(** $HOME and $USER replaced wherever they stand, also in front of further letters. *)
Inductive expands (h u : cstr) : cstr -> cstr -> Prop :=
| ex_nil : expands h u [] []
| ex_home : forall s t, expands h u s t -> expands h u (lit "$HOME" ++ s)%list (h ++ t)%list
| ex_user : forall s t, expands h u s t -> expands h u (lit "$USER" ++ s)%list (u ++ t)%list
| ex_char : forall c s t, (forall r, c :: s <> lit "$HOME" ++ r)%list -> (forall r, c :: s <> lit "$USER" ++ r)%list -> expands h u s t -> expands h u (c :: s) (c :: t).
Definition vars (h u : cstr) : list (cstr * cstr) := [(lit "HOME", h); (lit "USER", u)].

Lemma variable_cases : forall h u c s, match (if Ascii.eqb c "$"%char then variable (vars h u) s else None) with
  | Some (v, r) => (c :: s = lit "$HOME" ++ r /\ v = h \/ c :: s = lit "$USER" ++ r /\ v = u)%list
  | None => (forall r, c :: s <> lit "$HOME" ++ r)%list /\ (forall r, c :: s <> lit "$USER" ++ r)%list
  end.
Proof.
  intros h u c s. destruct (Ascii.eqb_spec c "$"%char) as [->|D].
  2:{ split; intros r Q; injection Q as Q _; congruence. }
  unfold vars. cbn [variable]. destruct (skip_prefix (lit "HOME") s) as [r|] eqn:H1.
  - apply skip_prefix_some in H1. left. rewrite H1. auto.
  - destruct (skip_prefix (lit "USER") s) as [r|] eqn:H2.
    + apply skip_prefix_some in H2. right. rewrite H2. auto.
    + split; intros r Q; injection Q as Q; [pose proof (proj2 (skip_prefix_some (lit "HOME") s r) Q)|pose proof (proj2 (skip_prefix_some (lit "USER") s r) Q)]; congruence.
Qed.
Lemma home_var : forall h u s, variable (vars h u) (lit "HOME" ++ s)%list = Some (h, s).
Proof. reflexivity. Qed.
Lemma user_var : forall h u s, variable (vars h u) (lit "USER" ++ s)%list = Some (u, s).
Proof. reflexivity. Qed.
Lemma no_var : forall h u c s, (forall r, c :: s <> lit "$HOME" ++ r)%list -> (forall r, c :: s <> lit "$USER" ++ r)%list ->
  (if Ascii.eqb c "$"%char then variable (vars h u) s else None) = None.
Proof.
  intros h u c s A B. pose proof (variable_cases h u c s) as X. destruct (if Ascii.eqb c "$"%char then variable (vars h u) s else None) as [[v r]|]; [|reflexivity].
  destruct X as [[X _]|[X _]]; [destruct (A r X)|destruct (B r X)].
Qed.
Lemma expands_total : forall h u n s, length s <= n -> exists t, expands h u s t.
Proof.
  intros h u. induction n as [|n IH]; intros s L; [destruct s; [exists []; constructor|cbn in L; lia]|].
  destruct s as [|c s]; [exists []; constructor|]. pose proof (variable_cases h u c s) as X. destruct (if Ascii.eqb c "$"%char then variable (vars h u) s else None) as [[v r]|].
  - assert (Lr : length r <= n) by (destruct X as [[X _]|[X _]]; apply (f_equal (@length ascii)) in X; rewrite app_length in X; cbn in X, L; lia).
    destruct (IH r Lr) as [t T]. destruct X as [[X ->]|[X ->]]; rewrite X; eexists; [apply ex_home|apply ex_user]; exact T.
  - destruct (IH s) as [t T]; [cbn in L; lia|]. exists (c :: t). apply ex_char; [apply X|apply X|exact T].
Qed.
Lemma expanded_length_spec : forall h u s t, expands h u s t -> forall fuel, length s < fuel -> expanded_length fuel (vars h u) s = Ok (length t).
Proof.
  intros h u s t H. induction H as [|s t H IH|s t H IH|c s t A B H IH]; intros fuel L; (destruct fuel as [|fuel]; [lia|]).
  - reflexivity.
  - cbn [lit list_ascii_of_string app expanded_length] in *. cbn [length] in L. change (variable (vars h u) ("H" :: "O" :: "M" :: "E" :: s)%char) with (Some (h, s)).
    cbn [Ascii.eqb Bool.eqb]. rewrite IH by lia. cbn [bind]. rewrite app_length. reflexivity.
  - cbn [lit list_ascii_of_string app expanded_length] in *. cbn [length] in L. change (variable (vars h u) ("U" :: "S" :: "E" :: "R" :: s)%char) with (Some (u, s)).
    cbn [Ascii.eqb Bool.eqb]. rewrite IH by lia. cbn [bind]. rewrite app_length. reflexivity.
  - cbn [expanded_length]. rewrite (no_var h u c s A B). cbn [length] in *. rewrite IH by lia. reflexivity.
Qed.
Lemma expand_loop_spec : forall h u s t, expands h u s t -> forall fuel size b, length s < fuel -> b <> [] -> length b + length t < size ->
  expand_loop fuel (vars h u) size s b = Ok (b ++ t)%list.
Proof.
  assert (V : forall fuel vv size r (b v t : cstr), b <> [] -> length b + length (v ++ t)%list < size -> (forall b', b' <> [] -> length b' + length t < size -> expand_loop fuel vv size r b' = Ok (b' ++ t)%list) ->
    (let b' := (b ++ v)%list in if negb (Nat.ltb (length b') size) then UB else match b' with [] => UB | _ => expand_loop fuel vv size r b' end) = Ok (b ++ v ++ t)%list).
  { intros fuel vv size r b v t N L IH. cbv zeta. rewrite app_length in L. assert (X : length (b ++ v)%list < size) by (rewrite app_length; lia). apply Nat.ltb_lt in X. rewrite X. cbn [negb].
    assert (Nb : (b ++ v)%list <> []) by (destruct b; [congruence|discriminate]). destruct (b ++ v)%list as [|x y] eqn:E; [congruence|]. rewrite <- E in *.
    rewrite IH; [rewrite <- app_assoc; reflexivity|exact Nb|rewrite app_length; lia]. }
  intros h u s t H. induction H as [|s t H IH|s t H IH|c s t A B H IH]; intros fuel size b L N Sz; (destruct fuel as [|fuel]; [lia|]).
  - cbn [expand_loop length] in *. assert (X : length b < size) by lia. apply Nat.ltb_lt in X. rewrite X, app_nil_r. reflexivity.
  - cbn [lit list_ascii_of_string app expand_loop] in *. cbn [length] in L. change (variable (vars h u) ("H" :: "O" :: "M" :: "E" :: s)%char) with (Some (h, s)).
    cbn [Ascii.eqb Bool.eqb]. apply V; [exact N|exact Sz|]. intros b' N' L'. apply IH; [lia|exact N'|exact L'].
  - cbn [lit list_ascii_of_string app expand_loop] in *. cbn [length] in L. change (variable (vars h u) ("U" :: "S" :: "E" :: "R" :: s)%char) with (Some (u, s)).
    cbn [Ascii.eqb Bool.eqb]. apply V; [exact N|exact Sz|]. intros b' N' L'. apply IH; [lia|exact N'|exact L'].
  - cbn [expand_loop]. rewrite (no_var h u c s A B). cbn [length] in *. rewrite out_ok by lia. cbn [bind]. rewrite IH; [rewrite <- app_assoc; reflexivity|lia|destruct b; discriminate|].
    rewrite app_length. cbn [length]. lia.
Qed.
(** The text begins with a variable that has no value. *)
Definition empty_start (h u s : cstr) : Prop := (h = [] /\ exists r, s = lit "$HOME" ++ r)%list \/ (u = [] /\ exists r, s = lit "$USER" ++ r)%list.
Lemma expand_spec : forall h u s t, expands h u s t -> (empty_start h u s -> expand_variables (vars h u) s = UB) /\ (~ empty_start h u s -> expand_variables (vars h u) s = Ok t).
Proof.
  intros h u s t H. unfold expand_variables. rewrite (expanded_length_spec _ _ _ _ H) by lia. cbn [bind].
  assert (F0 : forall v r t', expands h u r t' -> v <> [] -> forall fuel size, length r < fuel -> length (v ++ t')%list < size ->
    (let b' := ([] ++ v)%list in if negb (Nat.ltb (length b') size) then UB else match b' with [] => UB | _ => expand_loop fuel (vars h u) size r b' end) = Ok (v ++ t')%list).
  { intros v r t' E N fuel size L Sz. cbv zeta. cbn [app]. rewrite app_length in Sz. assert (X : length v < size) by lia. apply Nat.ltb_lt in X. rewrite X. cbn [negb].
    destruct v as [|x v]; [congruence|]. apply expand_loop_spec; [exact E|exact L|discriminate|exact Sz]. }
  destruct H as [|s t H|s t H|c s t A B H].
  - split; [intros [[_ [r X]]|[_ [r X]]]; discriminate|reflexivity].
  - cbn [expand_loop lit list_ascii_of_string app]. change (variable (vars h u) ("H" :: "O" :: "M" :: "E" :: s)%char) with (Some (h, s)). cbn [Ascii.eqb Bool.eqb]. split.
    + intros [[-> _]|[_ [r X]]]; [|discriminate X]. cbn. destruct (Nat.ltb 0 (S (length t))); reflexivity.
    + intro N. apply F0; [exact H| |cbn [length]; lia|lia]. intros ->. apply N. left. split; [reflexivity|]. exists s. reflexivity.
  - cbn [expand_loop lit list_ascii_of_string app]. change (variable (vars h u) ("U" :: "S" :: "E" :: "R" :: s)%char) with (Some (u, s)). cbn [Ascii.eqb Bool.eqb]. split.
    + intros [[_ [r X]]|[-> _]]; [discriminate X|]. cbn. destruct (Nat.ltb 0 (S (length t))); reflexivity.
    + intro N. apply F0; [exact H| |cbn [length]; lia|lia]. intros ->. apply N. right. split; [reflexivity|]. exists s. reflexivity.
  - split; [intros [[_ [r X]]|[_ [r X]]]; [destruct (A r X)|destruct (B r X)]|]. intros _. cbn [expand_loop]. rewrite (no_var h u c s A B). rewrite out_ok by (cbn; lia). cbn [bind app].
    rewrite (expand_loop_spec h u s t H); [reflexivity|cbn [length]; lia|discriminate|cbn [length]; lia].
Qed.
(** The variables are replaced, and the buffer is never left, unless the text begins with a variable without a value. *)
Theorem ns_variables : forall h u s, (forall t, expand_variables (vars h u) s = Ok t <-> expands h u s t /\ ~ empty_start h u s) /\
  (expand_variables (vars h u) s = UB <-> empty_start h u s).
Proof.
  intros h u s. destruct (expands_total h u (length s) s (Nat.le_refl _)) as [t0 H0]. destruct (expand_spec h u s t0 H0) as [X Y].
  assert (D : empty_start h u s \/ ~ empty_start h u s).
  { unfold empty_start. assert (P : forall n, (exists r, s = n ++ r)%list \/ ~ (exists r, s = n ++ r)%list).
    { intro n. destruct (skip_prefix n s) as [r|] eqn:E; [left; exists r; apply skip_prefix_some; exact E|]. right. intros [r Q]. apply skip_prefix_some in Q. congruence. }
    destruct (P (lit "$HOME")) as [A|A], (P (lit "$USER")) as [B|B]; destruct h, u; try (left; auto; fail); right; intros [[Z1 Z2]|[Z1 Z2]]; try discriminate Z1; auto. }
  split.
  - intro t. split.
    + intro E. destruct D as [D|D]; [rewrite (X D) in E; discriminate|]. split; [|exact D]. rewrite (Y D) in E. injection E as <-. exact H0.
    + intros [E N]. apply (proj2 (expand_spec h u s t E)). exact N.
  - split; [|exact X]. intro E. destruct D as [D|D]; [exact D|]. rewrite (Y D) in E. discriminate.
Qed.

(** ** Mount options *)
Definition commas (l : list cstr) : cstr := match l with [] => [] | o :: l => (o ++ flat_map (fun o => ","%char :: o) l)%list end.
Definition is_flag (o : cstr) : bool := streq o (lit "noexec") || streq o (lit "nosuid") || streq o (lit "nodev").
(** What is handed to mount(2) as text: empty options go too, except at the end. *)
Definition kept (l : list cstr) : list cstr :=
  (filter (fun o => negb (is_flag o) && negb (streq o [])) (removelast l) ++ filter (fun o => negb (is_flag o)) [last l []])%list.
Definition bits (l : list cstr) : Z :=
  ((if existsb (streq (lit "noexec")) l then 8 else 0) + (if existsb (streq (lit "nosuid")) l then 2 else 0) + (if existsb (streq (lit "nodev")) l then 4 else 0))%Z.

Fixpoint weight (l : list cstr) : nat := match l with [] => 0 | o :: l => S (length o) + weight l end.
Lemma commas_fields : forall s, commas (fields ","%char s) = s.
Proof.
  induction s as [|x s IH]; [reflexivity|]. cbn [fields]. destruct (Ascii.eqb_spec x ","%char) as [->|D].
  - destruct (fields ","%char s) as [|w ws] eqn:F; [apply fields_ne in F; destruct F|]. cbn [commas flat_map app] in *. rewrite <- IH. reflexivity.
  - destruct (fields ","%char s) as [|w ws] eqn:F; [apply fields_ne in F; destruct F|]. cbn [commas app] in *. rewrite <- IH. reflexivity.
Qed.
Lemma weight_fields : forall s, weight (fields ","%char s) = S (length s).
Proof.
  induction s as [|x s IH]; [reflexivity|]. cbn [fields]. destruct (Ascii.eqb x ","%char).
  - cbn [weight length]. rewrite IH. reflexivity.
  - destruct (fields ","%char s) as [|w ws] eqn:F; [apply fields_ne in F; destruct F|]. cbn [weight length] in *. lia.
Qed.
Definition glue (dest : option cstr) (K : list cstr) : option cstr :=
  match dest, K with None, [] => None | None, K => Some (commas K) | Some b, K => Some (b ++ flat_map (fun o => ","%char :: o) K)%list end.
Definition enc (a b c : bool) : Z := ((if a then 8 else 0) + (if b then 2 else 0) + (if c then 4 else 0))%Z.
Lemma kept_cons : forall o o2 l, kept (o :: o2 :: l) = (if negb (is_flag o) && negb (streq o []) then o :: kept (o2 :: l) else kept (o2 :: l)).
Proof. intros o o2 l. unfold kept. change (removelast (o :: o2 :: l)) with (o :: removelast (o2 :: l)). change (last (o :: o2 :: l) []) with (last (o2 :: l) []). cbn [filter]. destruct (negb (is_flag o) && negb (streq o [])); reflexivity. Qed.
Lemma streq_sym : forall a b, streq a b = streq b a.
Proof. intros a b. destruct (streq a b) eqn:E; [apply streq_eq in E; subst; symmetry; apply streq_refl|]. destruct (streq b a) eqn:F; [|reflexivity]. apply streq_eq in F. subst. rewrite streq_refl in E. discriminate. Qed.
Lemma find_flag : forall o, find (fun f => streq (fst f) o) mntflags =
  if streq (lit "noexec") o then Some (lit "noexec", 8%Z) else if streq (lit "nosuid") o then Some (lit "nosuid", 2%Z) else if streq (lit "nodev") o then Some (lit "nodev", 4%Z) else None.
Proof. intro o. unfold mntflags. cbn [find fst]. reflexivity. Qed.
Lemma filter_loop_spec : forall size l dest a b c, l <> [] -> match dest with None => weight l <= size | Some d => length d + weight l < size end ->
  filter_loop size l dest (enc a b c) = Ok (glue dest (kept l),
    enc (a || existsb (streq (lit "noexec")) l) (b || existsb (streq (lit "nosuid")) l) (c || existsb (streq (lit "nodev")) l)).
Proof.
  intros size. induction l as [|o l IH]; intros dest a b c N Cap; [congruence|]. cbn [filter_loop]. rewrite find_flag.
  assert (FL : is_flag o = (streq (lit "noexec") o || streq (lit "nosuid") o || streq (lit "nodev") o)) by (unfold is_flag; rewrite !(streq_sym o); reflexivity).
  assert (CL : match dest with None => weight l <= size | Some d => length d + weight l < size end) by (cbn [weight] in Cap; destruct dest; lia).
  assert (FC : is_flag o = true -> forall a' b' c', filter_loop size l dest (enc a' b' c') = Ok (glue dest (kept (o :: l)),
    enc (a' || existsb (streq (lit "noexec")) l) (b' || existsb (streq (lit "nosuid")) l) (c' || existsb (streq (lit "nodev")) l))).
  { intros F a' b' c'. destruct l as [|o2 l].
    - cbn [filter_loop existsb]. rewrite !orb_false_r. unfold kept. cbn [removelast last filter app]. rewrite F. cbn [negb]. destruct dest; cbn [glue flat_map]; rewrite ?app_nil_r; reflexivity.
    - rewrite kept_cons, F. cbn [negb andb]. apply IH; [discriminate|exact CL]. }
  cbn [existsb]. destruct (streq (lit "noexec") o) eqn:E1; [apply streq_eq in E1; subst o|].
  { replace (Z.lor (enc a b c) (snd (lit "noexec", 8%Z))) with (enc true b c) by (destruct a, b, c; reflexivity). rewrite FC by reflexivity. rewrite !orb_true_r, !orb_true_l. reflexivity. }
  destruct (streq (lit "nosuid") o) eqn:E2; [apply streq_eq in E2; subst o|].
  { replace (Z.lor (enc a b c) (snd (lit "nosuid", 2%Z))) with (enc a true c) by (destruct a, b, c; reflexivity). rewrite FC by reflexivity. rewrite !orb_true_r, !orb_true_l. reflexivity. }
  destruct (streq (lit "nodev") o) eqn:E3; [apply streq_eq in E3; subst o|].
  { replace (Z.lor (enc a b c) (snd (lit "nodev", 4%Z))) with (enc a b true) by (destruct a, b, c; reflexivity). rewrite FC by reflexivity. rewrite !orb_true_r, !orb_true_l. reflexivity. }
  cbn [orb] in FL. cbn [orb].
  assert (KP : (o <> [] \/ l = []) ->
    (let b' := match dest with Some d => (d ++ [","%char] ++ o)%list | None => o end in if Nat.ltb (length b') size then filter_loop size l (Some b') (enc a b c) else UB) =
    Ok (glue dest (kept (o :: l)), enc (a || existsb (streq (lit "noexec")) l) (b || existsb (streq (lit "nosuid")) l) (c || existsb (streq (lit "nodev")) l))).
  { intro K. cbv zeta. set (b' := match dest with Some d => (d ++ [","%char] ++ o)%list | None => o end).
    assert (B : length b' + weight l < size /\ length b' < size) by (unfold b'; cbn [weight] in Cap; destruct dest; rewrite ?app_length; cbn [length app]; lia).
    destruct B as [B1 B2]. apply Nat.ltb_lt in B2. rewrite B2. destruct l as [|o2 l].
    - cbn [filter_loop existsb]. rewrite !orb_false_r. unfold kept. cbn [removelast last filter app]. rewrite FL. cbn [negb]. unfold b'. destruct dest; cbn [glue flat_map commas]; rewrite ?app_nil_r; reflexivity.
    - rewrite IH; [|discriminate|exact B1]. rewrite kept_cons, FL. destruct K as [K|K]; [|discriminate]. assert (Eo : streq o [] = false).
      { destruct (streq o []) eqn:X; [|reflexivity]. apply streq_eq in X. congruence. }
      rewrite Eo. cbn [negb andb]. unfold b'. destruct dest as [d|]; cbn [glue]; [|reflexivity]. cbn [flat_map]. rewrite <- !app_assoc. reflexivity. }
  destruct o as [|x o].
  - destruct l as [|o2 l]; [apply KP; right; reflexivity|]. rewrite IH; [|discriminate|exact CL]. rewrite kept_cons, FL. reflexivity.
  - apply KP. left. discriminate.
Qed.
(** noexec, nosuid and nodev become flags, the other options stay, in their order and within the buffer. *)
Theorem ns_mntopts : forall opts, opts <> [] ->
  filter_mntopts opts = Ok (match kept (fields ","%char opts) with [] => None | K => Some (commas K) end, bits (fields ","%char opts)) /\
  commas (fields ","%char opts) = opts /\ (forall o, In o (fields ","%char opts) -> ~ In ","%char o).
Proof.
  intros opts N. split; [|split; [apply commas_fields|intros o I; apply fields_iff in I; apply I]].
  unfold filter_mntopts. destruct opts as [|x opts]; [congruence|]. change 0%Z with (enc false false false).
  rewrite filter_loop_spec; [|apply fields_ne|rewrite weight_fields; lia]. cbn [orb]. f_equal. f_equal. destruct (kept (fields ","%char (x :: opts))); reflexivity.
Qed.
Lemma filter_mntopts_total : forall opts, exists o f, filter_mntopts opts = Ok (o, f).
Proof. intros [|x opts]; [exists None, 0%Z; reflexivity|]. eexists; eexists. apply ns_mntopts. discriminate. Qed.

(** ** Methods and flags *)
Inductive named : cstr -> polymethod -> Prop :=
| nm_user : named (lit "user") USER | nm_context : named (lit "context") CONTEXT | nm_level : named (lit "level") LEVEL
| nm_tmpdir : named (lit "tmpdir") TMPDIR | nm_tmpfs : named (lit "tmpfs") TMPFS.
Lemma method_named : forall m pm, method_of m = Some pm <-> named m pm.
Proof.
  intros m pm. split.
  - assert (G : forall x pm', named x pm' -> forall k, (streq m x = false -> k = Some pm -> named m pm) -> (if streq m x then Some pm' else k) = Some pm -> named m pm).
    { intros x pm' Nx k K H. destruct (streq m x) eqn:Q; [apply streq_eq in Q; subst m; injection H as <-; exact Nx|auto]. }
    unfold method_of. intro H. revert H. do 4 (apply G; [constructor|]; intros _). apply G; [constructor|]. discriminate.
  - intros []; reflexivity.
Qed.
Definition mode_is (E : env) (m : cstr) (mode : Z) : Prop :=
  (m = [] /\ mode = NOBODY) \/ (m <> [] /\ ((e_num E m = None /\ mode = NOBODY) \/ exists v, e_num E m = Some v /\ mode = (v mod 2 ^ 32)%Z)).
Definition owner_is (E : env) (o : cstr) (u g : Z) : Prop := (o = [] /\ u = NOBODY /\ g = NOBODY) \/ (o <> [] /\ e_pw E o = Some (u, g)).
(** Mode, owner and group from what follows "create": =mode,owner,group, of which the end may be missing. *)
Inductive created (E : env) : cstr -> Z * Z * Z -> Prop :=
| cr_none : forall r, (forall r', r <> "="%char :: r') -> created E r (NOBODY, NOBODY, NOBODY)
| cr_mode : forall m mode, ~ In ","%char m -> mode_is E m mode -> created E ("="%char :: m) (mode, NOBODY, NOBODY)
| cr_owner : forall m mode o u g, ~ In ","%char m -> mode_is E m mode -> ~ In ","%char o -> owner_is E o u g -> created E ("="%char :: m ++ ","%char :: o) (mode, u, g)
| cr_owner_comma : forall m mode o u g, ~ In ","%char m -> mode_is E m mode -> ~ In ","%char o -> owner_is E o u g -> created E ("="%char :: m ++ ","%char :: o ++ [","%char]) (mode, u, g)
| cr_group : forall m mode o u g gr gid, ~ In ","%char m -> mode_is E m mode -> ~ In ","%char o -> owner_is E o u g -> gr <> [] -> e_gr E gr = Some gid ->
    created E ("="%char :: m ++ ","%char :: o ++ ","%char :: gr) (mode, u, gid).

Definition mode_of (E : env) (m : cstr) : Z := match m with [] => NOBODY | _ => match e_num E m with Some v => (v mod 4294967296)%Z | None => NOBODY end end.
Lemma mode_of_is : forall E m mode, mode_is E m mode <-> mode_of E m = mode.
Proof.
  intros E m mode. unfold mode_is, mode_of. change (2 ^ 32)%Z with 4294967296%Z. destruct m as [|x m].
  - split; [intros [[_ ->]|[X _]]; congruence|intros <-; auto].
  - split.
    + intros [[X _]|[_ [[X ->]|(v & X & ->)]]]; [discriminate| |]; rewrite X; reflexivity.
    + intros <-. right. split; [discriminate|]. destruct (e_num E (x :: m)) as [v|]; [right; exists v; auto|left; auto].
Qed.
Lemma create_params_iff : forall E r x, create_params E r = Some x <-> created E r x.
Proof.
  intros E r x. split.
  - unfold create_params. destruct r as [|c r]; [intros [= <-]; apply cr_none; discriminate|].
    destruct (Ascii.eqb_spec c "="%char) as [->|D]; cbn [negb]; [|intros [= <-]; apply cr_none; intros r' [= Q _]; congruence].
    destruct (split_at ","%char r) as [[m r1]|] eqn:S1.
    2:{ apply (proj1 (split_at_none _ _)) in S1. intros [= <-]. apply cr_mode; [exact S1|]. apply mode_of_is. reflexivity. }
    apply split_at_some in S1. destruct S1 as [-> Nm]. fold (mode_of E m). destruct (split_at ","%char r1) as [[o g]|] eqn:S2.
    + apply split_at_some in S2. destruct S2 as [-> No]. destruct o as [|y o].
      * cbn [app]. destruct g as [|z g]; [intros [= <-]; apply (cr_owner_comma E m _ []); [exact Nm|apply mode_of_is; reflexivity|exact No|left; auto]|].
        destruct (e_gr E (z :: g)) as [gid|] eqn:G; [|discriminate]. intros [= <-]. apply (cr_group E m _ [] NOBODY NOBODY); [exact Nm|apply mode_of_is; reflexivity|exact No|left; auto|discriminate|exact G].
      * destruct (e_pw E (y :: o)) as [[u gg]|] eqn:P; [|discriminate]. destruct g as [|z g].
        -- intros [= <-]. apply (cr_owner_comma E m _ (y :: o)); [exact Nm|apply mode_of_is; reflexivity|exact No|]. right. split; [discriminate|exact P].
        -- destruct (e_gr E (z :: g)) as [gid|] eqn:G; [|discriminate]. intros [= <-]. apply (cr_group E m _ (y :: o) u gg); [exact Nm|apply mode_of_is; reflexivity|exact No| |discriminate|exact G]. right. split; [discriminate|exact P].
    + apply (proj1 (split_at_none _ _)) in S2. destruct r1 as [|y o].
      * intros [= <-]. apply (cr_owner E m _ []); [exact Nm|apply mode_of_is; reflexivity|exact S2|left; auto].
      * destruct (e_pw E (y :: o)) as [[u gg]|] eqn:P; [|discriminate]. intros [= <-]. apply (cr_owner E m _ (y :: o)); [exact Nm|apply mode_of_is; reflexivity|exact S2|]. right. split; [discriminate|exact P].
  - assert (OW : forall o u g, owner_is E o u g -> exists pw, (match o with [] => Some None | _ => match e_pw E o with Some pw => Some (Some pw) | None => None end end) = Some pw /\
        match pw with Some (u, _) => u | None => NOBODY end = u /\ match pw with Some (_, g) => g | None => NOBODY end = g).
    { intros o u g [(-> & -> & ->)|(N & P)]; [exists None; auto|]. destruct o as [|y o]; [congruence|]. rewrite P. exists (Some (u, g)). auto. }
    intros [r' N|m mode Nm M|m mode o u g Nm M No O|m mode o u g Nm M No O|m mode o u g gr gid Nm M No O Ng G]; unfold create_params.
    + destruct r' as [|c r']; [reflexivity|]. destruct (Ascii.eqb_spec c "="%char) as [->|D]; [destruct (N r' eq_refl)|reflexivity].
    + rewrite Ascii.eqb_refl. cbn [negb]. rewrite (proj2 (split_at_none _ _) Nm). fold (mode_of E m). apply mode_of_is in M. rewrite M. reflexivity.
    + rewrite Ascii.eqb_refl. cbn [negb]. rewrite (proj2 (split_at_some _ _ m o) (conj eq_refl Nm)). fold (mode_of E m). apply mode_of_is in M. rewrite M.
      rewrite (proj2 (split_at_none _ _) No). destruct (OW o u g O) as (pw & P & P1 & P2). rewrite P, P1, P2. reflexivity.
    + rewrite Ascii.eqb_refl. cbn [negb]. rewrite (proj2 (split_at_some _ _ m (o ++ [","%char])%list) (conj eq_refl Nm)). fold (mode_of E m). apply mode_of_is in M. rewrite M.
      rewrite (proj2 (split_at_some _ _ o []) (conj eq_refl No)). destruct (OW o u g O) as (pw & P & P1 & P2). rewrite P, P1, P2. reflexivity.
    + rewrite Ascii.eqb_refl. cbn [negb]. rewrite (proj2 (split_at_some _ _ m (o ++ ","%char :: gr)%list) (conj eq_refl Nm)). fold (mode_of E m). apply mode_of_is in M. rewrite M.
      rewrite (proj2 (split_at_some _ _ o gr) (conj eq_refl No)). destruct (OW o u g O) as (pw & P & P1 & _). rewrite P, P1. destruct gr as [|z gr]; [congruence|]. rewrite G. reflexivity.
Qed.

Definition latest {S A : Type} (P : S -> A -> Prop) (ss : list S) (before x : A) : Prop :=
  (exists a s b, ss = (a ++ s :: b)%list /\ P s x /\ forall s' y, In s' b -> ~ P s' y) \/ ((forall s y, In s ss -> ~ P s y) /\ x = before).
Lemma latest_in : forall {S A T : Type} (P : S -> A -> Prop) (step : T -> S -> T) (val : T -> A) (inv : T -> Prop) ss,
  (forall t s, inv t -> In s ss -> inv (step t s) /\ (P s (val (step t s)) \/ ((forall y, ~ P s y) /\ val (step t s) = val t))) ->
  forall t, inv t -> inv (fold_left step ss t) /\ latest P ss (val t) (val (fold_left step ss t)).
Proof.
  intros S A T P step val inv ss. induction ss as [|s ss IH] using rev_ind; intros H t It; [split; [exact It|right; split; [intros ? ? []|reflexivity]]|].
  destruct (IH (fun t s Iv I => H t s Iv (in_or_app _ _ _ (or_introl I))) t It) as [I2 L]. clear IH.
  assert (IS : In s (ss ++ [s])) by (apply in_or_app; right; left; reflexivity).
  rewrite fold_left_app. cbn [fold_left]. destruct (H (fold_left step ss t) s I2 IS) as [I3 [X|(X & E)]]; (split; [exact I3|]).
  - left. exists ss, s, []. split; [reflexivity|]. split; [exact X|]. intros ? ? [].
  - rewrite E. destruct L as [(a & s0 & b & Q & Y & Z1)|(Y & Z1)].
    + left. exists a, s0, (b ++ [s]). split; [rewrite Q, <- app_assoc; reflexivity|]. split; [exact Y|]. intros s' y I. apply in_app_or in I. destruct I as [I|[<-|[]]]; [apply Z1; exact I|apply X].
    + right. split; [|exact Z1]. intros s' y I. apply in_app_or in I. destruct I as [I|[<-|[]]]; [apply Y; exact I|apply X].
Qed.
Lemma flag_in : forall {S T : Type} (P : S -> Prop) (step : T -> S -> T) (val : T -> bool) ss,
  (forall t s, In s ss -> (val (step t s) = true <-> P s \/ val t = true)) -> forall t, val (fold_left step ss t) = true <-> (exists s, In s ss /\ P s) \/ val t = true.
Proof.
  intros S T P step val ss. induction ss as [|s ss IH]; intros H t; cbn [fold_left].
  - split; [auto|]. intros [(s & [] & _)|X]; exact X.
  - rewrite IH by (intros; apply H; right; assumption). rewrite H by (left; reflexivity). split.
    + intros [(x & I & X)|[X|X]]; [left; exists x; split; [right; exact I|exact X]|left; exists s; split; [left; reflexivity|exact X]|right; exact X].
    + intros [(x & [->|I] & X)|X]; [right; left; exact X|left; exists x; auto|auto].
Qed.

Definition bad (E : env) (f : cstr) : bool := match skip_prefix (lit "create") f with Some r => match create_params E r with None => true | Some _ => false end | None => false end.
Definition step (E : env) (p : poly) (f : cstr) : poly := match parse_flag E f p with Ok (Some p') => p' | _ => p end.
Lemma bad_iff : forall E f, bad E f = true <-> exists r, f = (lit "create" ++ r)%list /\ forall x, ~ created E r x.
Proof.
  intros E f. unfold bad. destruct (skip_prefix (lit "create") f) as [r|] eqn:K.
  - apply skip_prefix_some in K. destruct (create_params E r) as [x|] eqn:C.
    + apply create_params_iff in C. split; [discriminate|]. intros (r' & Q & N). rewrite K in Q. apply app_inv_head in Q. subst r'. destruct (N x C).
    + split; [|reflexivity]. intros _. exists r. split; [exact K|]. intros x X. apply create_params_iff in X. congruence.
  - split; [discriminate|]. intros (r & Q & _). apply (proj2 (skip_prefix_some _ _ _)) in Q. congruence.
Qed.
Lemma parse_flag_result : forall E f p, parse_flag E f p = Ok (if bad E f then None else Some (step E p f)).
Proof.
  intros E f [dir rdir prefix method uids excl create noinit shared iscript mntopts script opts mflags owner group mode]. unfold bad, step. unfold parse_flag.
  destruct (skip_prefix (lit "create") f) as [r|]; [destruct (create_params E r) as [[[m o] g]|]; reflexivity|].
  destruct (skip_prefix (lit "noinit") f); [reflexivity|]. destruct (skip_prefix (lit "iscript") f); [reflexivity|]. destruct (skip_prefix (lit "shared") f); [reflexivity|].
  destruct (skip_prefix (lit "mntopts") f) as [[|c r]|]; [reflexivity| |reflexivity]. destruct method; try reflexivity. destruct (Ascii.eqb c "="%char); [|reflexivity].
  destruct (filter_mntopts_total r) as (o & fl & ->). reflexivity.
Qed.
Lemma parse_flags_result : forall E fs p, parse_flags E fs p = Ok (if existsb (bad E) fs then None else Some (fold_left (step E) fs p)).
Proof.
  intros E. induction fs as [|f fs IH]; intro p; [reflexivity|]. cbn [parse_flags existsb fold_left]. rewrite parse_flag_result. cbn [bind].
  destruct (bad E f); [reflexivity|]. cbn [orb]. apply IH.
Qed.
Definition gives_create (E : env) (f : cstr) (x : Z * Z * Z) : Prop := exists r, f = (lit "create" ++ r)%list /\ created E r x.
Definition gives_script (E : env) (f : cstr) (x : option cstr) : Prop :=
  exists c s, f = (lit "iscript=" ++ c :: s)%list /\ (c = "/"%char /\ x = Some (c :: s) \/ c <> "/"%char /\ x = Some (e_ddir E ++ c :: s)%list).
Definition gives_opts (pm : polymethod) (f : cstr) (x : option cstr * Z) : Prop :=
  pm = TMPFS /\ exists s, f = (lit "mntopts=" ++ s)%list /\ (s = [] /\ x = (None, 0%Z) \/
    s <> [] /\ x = (match kept (fields ","%char s) with [] => None | K => Some (commas K) end, bits (fields ","%char s))).
Definition starts (n f : cstr) : Prop := exists r, f = (n ++ r)%list.
Lemma starts_iff : forall n f, starts n f <-> skip_prefix n f <> None.
Proof.
  intros n f. unfold starts. split; [intros [r Q]; apply (proj2 (skip_prefix_some _ _ _)) in Q; congruence|].
  destruct (skip_prefix n f) as [r|] eqn:K; [|congruence]. intros _. exists r. apply skip_prefix_some. exact K.
Qed.
(** What a flag may begin with, and that it begins with one name only. *)
Lemma flag_cases : forall f,
  (exists r, skip_prefix (lit "create") f = Some r /\ skip_prefix (lit "noinit") f = None /\ skip_prefix (lit "iscript") f = None /\ skip_prefix (lit "shared") f = None /\ skip_prefix (lit "mntopts") f = None) \/
  (exists r, skip_prefix (lit "create") f = None /\ skip_prefix (lit "noinit") f = Some r /\ skip_prefix (lit "iscript") f = None /\ skip_prefix (lit "shared") f = None /\ skip_prefix (lit "mntopts") f = None) \/
  (exists r, skip_prefix (lit "create") f = None /\ skip_prefix (lit "noinit") f = None /\ skip_prefix (lit "iscript") f = Some r /\ skip_prefix (lit "shared") f = None /\ skip_prefix (lit "mntopts") f = None) \/
  (exists r, skip_prefix (lit "create") f = None /\ skip_prefix (lit "noinit") f = None /\ skip_prefix (lit "iscript") f = None /\ skip_prefix (lit "shared") f = Some r /\ skip_prefix (lit "mntopts") f = None) \/
  (exists r, skip_prefix (lit "create") f = None /\ skip_prefix (lit "noinit") f = None /\ skip_prefix (lit "iscript") f = None /\ skip_prefix (lit "shared") f = None /\ skip_prefix (lit "mntopts") f = Some r) \/
  (skip_prefix (lit "create") f = None /\ skip_prefix (lit "noinit") f = None /\ skip_prefix (lit "iscript") f = None /\ skip_prefix (lit "shared") f = None /\ skip_prefix (lit "mntopts") f = None).
Proof.
  intro f. destruct (skip_prefix (lit "create") f) as [r|] eqn:K1; [left; exists r; apply skip_prefix_some in K1; rewrite K1; auto|right].
  destruct (skip_prefix (lit "noinit") f) as [r|] eqn:K2; [left; exists r; apply skip_prefix_some in K2; rewrite K2; auto|right].
  destruct (skip_prefix (lit "iscript") f) as [r|] eqn:K3; [left; exists r; apply skip_prefix_some in K3; rewrite K3; auto|right].
  destruct (skip_prefix (lit "shared") f) as [r|] eqn:K4; [left; exists r; apply skip_prefix_some in K4; rewrite K4; auto|right].
  destruct (skip_prefix (lit "mntopts") f) as [r|] eqn:K5; [left; exists r; auto|right]. auto 6.
Qed.
Definition modes (p : poly) : Z * Z * Z := (p_mode p, p_owner p, p_group p).
Definition mounting (p : poly) : option cstr * Z := (p_opts p, p_mflags p).
Ltac flags f := destruct (flag_cases f) as [(r & K1 & K2 & K3 & K4 & K5)|[(r & K1 & K2 & K3 & K4 & K5)|[(r & K1 & K2 & K3 & K4 & K5)|[(r & K1 & K2 & K3 & K4 & K5)|[(r & K1 & K2 & K3 & K4 & K5)|(K1 & K2 & K3 & K4 & K5)]]]]].
Lemma step_bools : forall E p f, bad E f = false ->
  (p_create (step E p f) = true <-> starts (lit "create") f \/ p_create p = true) /\ (p_noinit (step E p f) = true <-> starts (lit "noinit") f \/ p_noinit p = true) /\
  (p_iscript (step E p f) = true <-> starts (lit "iscript") f \/ p_iscript p = true) /\ (p_shared (step E p f) = true <-> starts (lit "shared") f \/ p_shared p = true) /\
  (p_mntopts (step E p f) = true <-> starts (lit "mntopts") f \/ p_mntopts p = true).
Proof.
  intros E [dir rdir prefix method uids excl create noinit shared iscript mntopts script opts mflags owner group mode] f. unfold bad, step. rewrite !starts_iff. unfold parse_flag.
  flags f; rewrite ?K1, ?K2, ?K3, ?K4, ?K5; intro B.
  - destruct (create_params E r) as [[[m o] g]|]; [|discriminate]. cbn. intuition congruence.
  - cbn. intuition congruence.
  - cbn. intuition congruence.
  - cbn. intuition congruence.
  - destruct r as [|c r]; [cbn; intuition congruence|]. destruct method; try (cbn; intuition congruence). destruct (Ascii.eqb c "="%char); [|cbn; intuition congruence].
    destruct (filter_mntopts_total r) as (o & fl & ->). cbn. intuition congruence.
  - cbn. intuition congruence.
Qed.
Lemma step_same : forall E p f, p_method (step E p f) = p_method p /\ p_dir (step E p f) = p_dir p /\ p_rdir (step E p f) = p_rdir p /\ p_prefix (step E p f) = p_prefix p /\
  p_uids (step E p f) = p_uids p /\ p_exclusive (step E p f) = p_exclusive p.
Proof.
  intros E [dir rdir prefix method uids excl create noinit shared iscript mntopts script opts mflags owner group mode] f. unfold step, parse_flag.
  destruct (skip_prefix (lit "create") f) as [r|]; [destruct (create_params E r) as [[[m o] g]|]; cbn; auto 8|].
  destruct (skip_prefix (lit "noinit") f); [cbn; auto 8|]. destruct (skip_prefix (lit "iscript") f); [cbn; auto 8|]. destruct (skip_prefix (lit "shared") f); [cbn; auto 8|].
  destruct (skip_prefix (lit "mntopts") f) as [[|c r]|]; [cbn; auto 8| |cbn; auto 8]. destruct method; try (cbn; auto 8; fail). destruct (Ascii.eqb c "="%char); [|cbn; auto 8].
  destruct (filter_mntopts_total r) as (o & fl & ->). cbn; auto 8.
Qed.
Lemma step_create : forall E p f, bad E f = false -> gives_create E f (modes (step E p f)) \/ ((forall x, ~ gives_create E f x) /\ modes (step E p f) = modes p).
Proof.
  intros E [dir rdir prefix method uids excl create noinit shared iscript mntopts script opts mflags owner group mode] f. unfold bad, step, gives_create. unfold parse_flag.
  assert (NO : skip_prefix (lit "create") f = None -> forall x, ~ (exists r, f = (lit "create" ++ r)%list /\ created E r x)).
  { intros K x (r & Q & _). apply (proj2 (skip_prefix_some _ _ _)) in Q. congruence. }
  flags f; rewrite ?K1, ?K2, ?K3, ?K4, ?K5; intro B.
  - destruct (create_params E r) as [[[m o] g]|] eqn:C; [|discriminate]. left. unfold modes. cbn [p_mode p_owner p_group]. exists r. split; [apply skip_prefix_some; exact K1|apply create_params_iff; exact C].
  - right. split; [exact (NO K1)|reflexivity].
  - right. split; [exact (NO K1)|reflexivity].
  - right. split; [exact (NO K1)|reflexivity].
  - right. split; [exact (NO K1)|]. destruct r as [|c r]; [reflexivity|]. destruct method; try reflexivity. destruct (Ascii.eqb c "="%char); [|reflexivity].
    destruct (filter_mntopts_total r) as (o & fl & ->). reflexivity.
  - right. split; [exact (NO K1)|reflexivity].
Qed.
Lemma step_script : forall E p f, bad E f = false -> gives_script E f (p_script (step E p f)) \/ ((forall x, ~ gives_script E f x) /\ p_script (step E p f) = p_script p).
Proof.
  intros E [dir rdir prefix method uids excl create noinit shared iscript mntopts script opts mflags owner group mode] f. unfold bad, step, gives_script. unfold parse_flag.
  assert (NO : skip_prefix (lit "iscript") f = None -> forall x, ~ (exists c s, f = (lit "iscript=" ++ c :: s)%list /\ (c = "/"%char /\ x = Some (c :: s) \/ c <> "/"%char /\ x = Some (e_ddir E ++ c :: s)%list))).
  { intros K x (c & s & Q & _). assert (X : skip_prefix (lit "iscript") f = Some ("="%char :: c :: s)) by (apply skip_prefix_some; exact Q). congruence. }
  flags f; rewrite ?K1, ?K2, ?K3, ?K4, ?K5; intro B.
  - right. split; [exact (NO K3)|]. destruct (create_params E r) as [[[m o] g]|]; reflexivity.
  - right. split; [exact (NO K3)|reflexivity].
  - apply skip_prefix_some in K3.
    assert (NX : (forall c s, r <> "="%char :: c :: s) -> forall x, ~ (exists c s, f = (lit "iscript=" ++ c :: s)%list /\ (c = "/"%char /\ x = Some (c :: s) \/ c <> "/"%char /\ x = Some (e_ddir E ++ c :: s)%list))).
    { intros Nr x (c & s & Q & _). rewrite K3 in Q. change (lit "iscript=" ++ c :: s)%list with (lit "iscript" ++ "="%char :: c :: s)%list in Q. apply app_inv_head in Q. destruct (Nr c s Q). }
    cbn [p_script]. destruct r as [|c r]; [right; split; [apply NX; discriminate|reflexivity]|]. unfold iscript_params.
    destruct (Ascii.eqb_spec c "="%char) as [->|D]; cbn [negb]; [|right; split; [apply NX; intros c' s' [= Q _]; congruence|reflexivity]].
    destruct r as [|c r]; [right; split; [apply NX; discriminate|reflexivity]|]. left. exists c, r. split; [exact K3|]. destruct (Ascii.eqb_spec c "/"%char) as [->|D]; auto.
  - right. split; [exact (NO K3)|reflexivity].
  - right. split; [exact (NO K3)|]. destruct r as [|c r]; [reflexivity|]. destruct method; try reflexivity. destruct (Ascii.eqb c "="%char); [|reflexivity].
    destruct (filter_mntopts_total r) as (o & fl & ->). reflexivity.
  - right. split; [exact (NO K3)|reflexivity].
Qed.
Lemma step_opts : forall E p f, bad E f = false -> gives_opts (p_method p) f (mounting (step E p f)) \/ ((forall x, ~ gives_opts (p_method p) f x) /\ mounting (step E p f) = mounting p).
Proof.
  intros E [dir rdir prefix method uids excl create noinit shared iscript mntopts script opts mflags owner group mode] f. unfold bad, step. unfold parse_flag. cbn [p_method].
  assert (NO : skip_prefix (lit "mntopts") f = None -> forall x, ~ gives_opts method f x).
  { intros K x (_ & s & Q & _). assert (X : skip_prefix (lit "mntopts") f = Some ("="%char :: s)) by (apply skip_prefix_some; exact Q). congruence. }
  flags f; rewrite ?K1, ?K2, ?K3, ?K4, ?K5; intro B.
  - right. split; [exact (NO K5)|]. destruct (create_params E r) as [[[m o] g]|]; reflexivity.
  - right. split; [exact (NO K5)|reflexivity].
  - right. split; [exact (NO K5)|reflexivity].
  - right. split; [exact (NO K5)|reflexivity].
  - apply skip_prefix_some in K5. destruct r as [|c r].
    { right. split; [|reflexivity]. intros x (_ & s & Q & _). rewrite K5 in Q. change (lit "mntopts=" ++ s)%list with (lit "mntopts" ++ "="%char :: s)%list in Q. apply app_inv_head in Q. discriminate. }
    assert (DM : method = TMPFS \/ method <> TMPFS) by (destruct method; (left; reflexivity) || (right; discriminate)). destruct DM as [->|DM].
    2:{ right. split; [intros x [X _]; congruence|]. destruct method; try reflexivity. congruence. }
    destruct (Ascii.eqb_spec c "="%char) as [->|D].
    + destruct (filter_mntopts_total r) as (o & fl & Fm). rewrite Fm. cbn [bind]. left. split; [reflexivity|]. exists r. split; [exact K5|]. unfold mounting. cbn [p_opts p_mflags].
      destruct r as [|y r]; [left; injection Fm as <- <-; auto|]. right. split; [discriminate|]. destruct (ns_mntopts (y :: r)) as [Q _]; [discriminate|]. rewrite Q in Fm. injection Fm as <- <-. reflexivity.
    + right. split; [|reflexivity]. intros x (_ & s & Q & _). rewrite K5 in Q. change (lit "mntopts=" ++ s)%list with (lit "mntopts" ++ "="%char :: s)%list in Q. apply app_inv_head in Q. injection Q as Q _. congruence.
  - right. split; [exact (NO K5)|reflexivity].
Qed.
(** The method is the first word between colons; every other word that begins with the name of a flag sets it, the last one with a value
    decides. An unknown method or owner makes the method invalid; with no word at all the behaviour is undefined. *)
Theorem ns_method : forall E method,
  (parse_method E method = UB <-> words (lit ":") method []) /\
  (parse_method E method = Ok None <-> exists m fs, words (lit ":") method (m :: fs) /\
     ((forall pm, ~ named m pm) \/ exists f r, In f fs /\ f = (lit "create" ++ r)%list /\ forall x, ~ created E r x)) /\
  forall p, parse_method E method = Ok (Some p) -> exists m fs, words (lit ":") method (m :: fs) /\ named m (p_method p) /\
    (p_create p = true <-> exists f, In f fs /\ starts (lit "create") f) /\ (p_noinit p = true <-> exists f, In f fs /\ starts (lit "noinit") f) /\
    (p_iscript p = true <-> exists f, In f fs /\ starts (lit "iscript") f) /\ (p_shared p = true <-> exists f, In f fs /\ starts (lit "shared") f) /\
    (p_mntopts p = true <-> exists f, In f fs /\ starts (lit "mntopts") f) /\
    latest (gives_create E) fs (0, 0, 0)%Z (p_mode p, p_owner p, p_group p) /\ latest (gives_script E) fs None (p_script p) /\
    latest (gives_opts (p_method p)) fs (None, 0%Z) (p_opts p, p_mflags p).
Proof.
  intros E method. pose proof (strtoks_words (lit ":") method) as W. unfold parse_method. destruct (strtoks (lit ":") method) as [|m fs] eqn:T.
  - split; [split; auto|]. split; [|discriminate]. split; [discriminate|]. intros (m & fs & W' & _). apply words_strtoks in W'. congruence.
  - split.
    { split; [|intro W'; apply words_strtoks in W'; congruence]. destruct (method_of m); [|discriminate]. rewrite parse_flags_result. discriminate. }
    split.
    { split.
      - intro H. exists m, fs. split; [exact W|]. destruct (method_of m) as [pm|] eqn:M.
        + rewrite parse_flags_result in H. destruct (existsb (bad E) fs) eqn:B; [|discriminate]. right. apply existsb_exists in B. destruct B as (f & I & B). apply bad_iff in B. destruct B as (r & Q & N). exists f, r. auto.
        + left. intros pm N. apply method_named in N. congruence.
      - intros (m' & fs' & W' & H). apply words_strtoks in W'. rewrite T in W'. injection W' as <- <-. destruct (method_of m) as [pm|] eqn:M; [|reflexivity].
        destruct H as [H|(f & r & I & Q & N)]; [apply method_named in M; destruct (H _ M)|]. rewrite parse_flags_result.
        assert (B : existsb (bad E) fs = true) by (apply existsb_exists; exists f; split; [exact I|]; apply bad_iff; exists r; auto). rewrite B. reflexivity. }
    intros p H. exists m, fs. split; [exact W|]. destruct (method_of m) as [pm|] eqn:M; [|discriminate]. rewrite parse_flags_result in H.
    destruct (existsb (bad E) fs) eqn:B; [discriminate|]. injection H as <-. set (p0 := mkPoly [] [] [] pm [] false false false false false false None None 0 0 0 0).
    assert (G : forall f, In f fs -> bad E f = false).
    { intros f I. destruct (bad E f) eqn:X; [|reflexivity]. assert (Y : existsb (bad E) fs = true) by (apply existsb_exists; exists f; auto). congruence. }
    assert (PM : p_method (fold_left (step E) fs p0) = pm).
    { clear. assert (X : forall p, p_method (fold_left (step E) fs p) = p_method p) by (induction fs as [|f fs IH]; intro p; [reflexivity|]; cbn [fold_left]; rewrite IH; apply step_same). rewrite X. reflexivity. }
    assert (FB : forall (val : poly -> bool) n, val p0 = false -> (forall p f, bad E f = false -> (val (step E p f) = true <-> starts n f \/ val p = true)) ->
      (val (fold_left (step E) fs p0) = true <-> exists f, In f fs /\ starts n f)).
    { intros val n V0 Hs. rewrite (flag_in (starts n) (step E) val fs) by (intros t s I; apply Hs; apply G; exact I). rewrite V0. intuition discriminate. }
    rewrite PM. split; [apply method_named; exact M|].
    split; [apply FB; [reflexivity|]; intros; apply step_bools; assumption|]. split; [apply FB; [reflexivity|]; intros; apply step_bools; assumption|].
    split; [apply FB; [reflexivity|]; intros; apply step_bools; assumption|]. split; [apply FB; [reflexivity|]; intros; apply step_bools; assumption|].
    split; [apply FB; [reflexivity|]; intros; apply step_bools; assumption|].
    split; [|split].
    + apply (latest_in (gives_create E) (step E) modes (fun _ => True) fs); [|exact I]. intros t s _ Is. split; [exact I|]. apply step_create. apply G. exact Is.
    + apply (latest_in (gives_script E) (step E) p_script (fun _ => True) fs); [|exact I]. intros t s _ Is. split; [exact I|]. apply step_script. apply G. exact Is.
    + apply (latest_in (gives_opts pm) (step E) mounting (fun t => p_method t = pm) fs); [|reflexivity]. intros t s It Is. split; [rewrite (proj1 (step_same E t s)); exact It|].
      rewrite <- It. apply step_opts. apply G. exact Is.
Qed.

(** ** Lines *)
(** The text of a line: from the first character that is not white space to the first [#] or newline. *)
Definition text_of (line t : cstr) : Prop :=
  exists sp rest, line = (sp ++ t ++ rest)%list /\ forallb isspace sp = true /\ (forall c r, (t ++ rest)%list = c :: r -> isspace c = false) /\
    ~ In "#"%char t /\ ~ In c_nl t /\ (rest = [] \/ exists r, rest = "#"%char :: r \/ rest = c_nl :: r).
Lemma trim_text : forall line, text_of line (trim_line line).
Proof.
  intro line. unfold trim_line. destruct (span isspace line) as [sp l] eqn:S0. apply span_app in S0. destruct S0 as (-> & Fs & B). cbn [snd].
  assert (H0 : forall c r, l = c :: r -> isspace c = false) by (destruct B as [->|(c & r & -> & B)]; [discriminate|intros c' r' [= <- <-]; exact B]). clear B.
  destruct (split_at "#"%char l) as [[a b]|] eqn:S1.
  - apply split_at_some in S1. destruct S1 as [-> N1]. destruct (split_at c_nl a) as [[a2 b2]|] eqn:S2.
    + apply split_at_some in S2. destruct S2 as [-> N2]. exists sp, (c_nl :: b2 ++ "#"%char :: b)%list. rewrite <- app_assoc in *. cbn [app] in *.
      split; [reflexivity|]. split; [exact Fs|]. split; [exact H0|]. split; [intro I; apply N1; apply in_or_app; auto|]. split; [exact N2|]. right. eauto.
    + apply split_at_none in S2. exists sp, ("#"%char :: b)%list. split; [reflexivity|]. split; [exact Fs|]. split; [exact H0|]. split; [exact N1|]. split; [exact S2|]. right. eauto.
  - apply split_at_none in S1. destruct (split_at c_nl l) as [[a2 b2]|] eqn:S2.
    + apply split_at_some in S2. destruct S2 as [-> N2]. exists sp, (c_nl :: b2)%list. split; [reflexivity|]. split; [exact Fs|]. split; [exact H0|].
      split; [intro I; apply S1; apply in_or_app; auto|]. split; [exact N2|]. right. eauto.
    + apply split_at_none in S2. exists sp, []. rewrite !app_nil_r. split; [reflexivity|]. split; [exact Fs|]. split; [exact H0|]. auto.
Qed.
Lemma text_trim : forall line t, text_of line t -> trim_line line = t.
Proof.
  intros line t (sp & rest & -> & Fs & H0 & N1 & N2 & R). unfold trim_line. rewrite span_spec; [|exact Fs|].
  2:{ destruct (t ++ rest)%list as [|c r] eqn:Q; [auto|]. right. exists c, r. split; [reflexivity|]. exact (H0 c r eq_refl). }
  cbn [snd]. clear H0. destruct R as [->|(r & [->| ->])].
  - rewrite app_nil_r. rewrite (proj2 (split_at_none _ _) N1), (proj2 (split_at_none _ _) N2). reflexivity.
  - rewrite (proj2 (split_at_some _ _ t r) (conj eq_refl N1)), (proj2 (split_at_none _ _) N2). reflexivity.
  - destruct (split_at "#"%char r) as [[a b]|] eqn:Q.
    + apply split_at_some in Q. destruct Q as [-> N3]. rewrite (proj2 (split_at_some "#"%char (t ++ c_nl :: a ++ "#"%char :: b)%list (t ++ c_nl :: a)%list b)).
      * rewrite (proj2 (split_at_some c_nl _ t a) (conj eq_refl N2)). reflexivity.
      * split; [rewrite <- app_assoc; reflexivity|]. intro I. apply in_app_or in I. destruct I as [I|[I|I]]; [auto|discriminate|auto].
    + apply split_at_none in Q. rewrite (proj2 (split_at_none "#"%char (t ++ c_nl :: r)%list)).
      * rewrite (proj2 (split_at_some c_nl _ t r) (conj eq_refl N2)). reflexivity.
      * intro I. apply in_app_or in I. destruct I as [I|[I|I]]; [auto|discriminate|auto].
Qed.
(** A path without the slashes at its end, except that its first character stays. *)
Definition stripped (s t : cstr) : Prop := (s = [] /\ t = []) \/ exists c r k, s = (c :: r ++ repeat "/"%char k)%list /\ (~ exists a, r = a ++ ["/"%char])%list /\ t = c :: r.
Lemma span_slash : forall k s, span (fun x => Ascii.eqb x "/"%char) (repeat "/"%char k ++ s)%list = ((repeat "/"%char k ++ fst (span (fun x => Ascii.eqb x "/"%char) s))%list, snd (span (fun x => Ascii.eqb x "/"%char) s)).
Proof. induction k as [|k IH]; intro s; cbn [repeat app span]; [destruct (span _ s); reflexivity|]. rewrite IH. reflexivity. Qed.
Lemma stripped_iff : forall s t, strip_slashes s = t <-> stripped s t.
Proof.
  assert (X : forall s, stripped s (strip_slashes s)).
  { intros [|c s]; [left; auto|]. right. unfold strip_slashes. destruct (span (fun x => Ascii.eqb x "/"%char) (rev s)) as [a b] eqn:Q. apply span_app in Q. destruct Q as (Q & A & B). cbn [snd].
    exists c, (rev b), (length a). split; [|split; [|reflexivity]].
    - f_equal. rewrite <- (rev_involutive s), Q, rev_app_distr. f_equal. clear - A. induction a as [|x a IH]; [reflexivity|]. cbn [forallb] in A. apply andb_true_iff in A. destruct A as [A1 A2].
      cbn [rev length]. rewrite IH by exact A2. apply Ascii.eqb_eq in A1. subst x. change (repeat "/"%char (S (length a))) with ("/"%char :: repeat "/"%char (length a)). symmetry. apply repeat_cons.
    - intros [y Y]. apply (f_equal (@rev ascii)) in Y. rewrite rev_involutive, rev_app_distr in Y. cbn [rev app] in Y. destruct B as [->|(z & b' & -> & B)]; [discriminate|]. injection Y as -> _. discriminate. }
  assert (U : forall s t, stripped s t -> strip_slashes s = t).
  { intros s t [[-> ->]|(c & r & k & -> & N & ->)]; [reflexivity|]. unfold strip_slashes. f_equal. rewrite rev_app_distr.
    assert (R : rev (repeat "/"%char k) = repeat "/"%char k).
    { induction k as [|k IH]; [reflexivity|]. cbn [repeat rev]. rewrite IH. symmetry. apply repeat_cons. }
    rewrite R, span_slash. cbn [snd]. destruct (rev r) as [|y r'] eqn:Q.
    - cbn. apply (f_equal (@rev ascii)) in Q. rewrite rev_involutive in Q. subst r. reflexivity.
    - cbn [span]. destruct (Ascii.eqb_spec y "/"%char) as [->|D].
      + exfalso. apply N. exists (rev r'). apply (f_equal (@rev ascii)) in Q. rewrite rev_involutive in Q. exact Q.
      + cbn [snd]. rewrite <- Q. apply rev_involutive. }
  intros s t. split; [intros <-; apply X|apply U].
Qed.
Definition dotfree (s : cstr) : Prop := forall a r, s <> (a ++ lit ".." ++ r)%list.
Lemma dotfree_iff : forall s, strstr (lit "..") s = None <-> dotfree s.
Proof.
  intro s. unfold dotfree. split; [intros H a r; apply strstr_none; exact H|]. intro H. destruct (strstr (lit "..") s) as [[a p]|] eqn:Q; [|reflexivity].
  apply strstr_some in Q. destruct Q as (-> & (r & ->) & _). destruct (H a r eq_refl).
Qed.
(** The uids of the last word: the list follows a [~] if it is exclusive; unknown names do not count. *)
Definition uids_of (E : env) (rest : list cstr) (excl : bool) (uids : list Z) : Prop :=
  (rest = [] /\ excl = false /\ uids = []) \/
  exists u r l, rest = u :: r /\ (excl = true /\ u = "~"%char :: l \/ excl = false /\ u = l /\ forall l', u <> "~"%char :: l') /\
    uids = flat_map (fun n => match e_pw E n with Some (x, _) => [x] | None => [] end) (fields ","%char l).
Lemma parse_uids_of : forall E u r, uids_of E (u :: r) (fst (parse_uids E u)) (snd (parse_uids E u)).
Proof.
  intros E u r. right.
  unfold parse_uids. destruct u as [|c u].
  - exists [], r, []. split; [reflexivity|]. split; [right; repeat split; discriminate|]. reflexivity.
  - destruct (Ascii.eqb_spec c "~"%char) as [->|D].
    + exists ("~"%char :: u), r, u. split; [reflexivity|]. split; [left; auto|]. reflexivity.
    + exists (c :: u), r, (c :: u). split; [reflexivity|]. split; [right; repeat split; intros l' [= Q _]; congruence|]. reflexivity.
Qed.
(** What a line must hold to be taken as the entry [p]. *)
Definition entry (E : env) (user ruser : cstr * cstr) (line : cstr) (p : poly) : Prop :=
  exists t cd cp m rest dir rdir q, text_of line t /\ qwords t (cd :: cp :: m :: rest) /\
    expands (snd user) (fst user) cd dir /\ stripped dir (p_dir p) /\ expands (snd ruser) (fst ruser) cd rdir /\ stripped rdir (p_rdir p) /\ expands (snd user) (fst user) cp (p_prefix p) /\
    parse_method E m = Ok (Some q) /\ (exists r, p_dir p = "/"%char :: r) /\ p_rdir p <> [] /\ dotfree (p_dir p) /\ dotfree (p_prefix p) /\
    (p_method p = TMPFS \/ exists r, p_prefix p = "/"%char :: r) /\
    (Z.of_nat (length (p_dir p)) < 4096)%Z /\ (Z.of_nat (length (p_rdir p)) < 4096)%Z /\ (Z.of_nat (length (p_prefix p)) < 4096)%Z /\
    uids_of E rest (p_exclusive p) (p_uids p) /\
    p_method p = p_method q /\ p_create p = p_create q /\ p_noinit p = p_noinit q /\ p_shared p = p_shared q /\ p_iscript p = p_iscript q /\ p_mntopts p = p_mntopts q /\
    p_script p = p_script q /\ p_opts p = p_opts q /\ p_mflags p = p_mflags q /\ p_owner p = p_owner q /\ p_group p = p_group q /\ p_mode p = p_mode q.
(** What makes reading a line undefined. *)
Definition undefined_line (user ruser : cstr * cstr) (line : cstr) : Prop :=
  exists t cd cp m rest, text_of line t /\ qwords t (cd :: cp :: m :: rest) /\
    (empty_start (snd ruser) (fst ruser) cd \/ empty_start (snd user) (fst user) cd \/ empty_start (snd user) (fst user) cp \/ (cd <> [] /\ words (lit ":") m [])).
Lemma expands_nonempty : forall h u s t, expands h u s t -> ~ empty_start h u s -> (t = [] <-> s = []).
Proof.
  intros h u s t X N. destruct X as [|s t X|s t X|c s t _ _ X].
  - split; auto.
  - split; [|discriminate]. intro Q. apply app_eq_nil in Q. destruct Q as [Q _]. exfalso. apply N. left. eauto.
  - split; [|discriminate]. intro Q. apply app_eq_nil in Q. destruct Q as [Q _]. exfalso. apply N. right. eauto.
  - split; discriminate.
Qed.
Lemma trim_nul : forall line, ~ In NUL line -> ~ In NUL (trim_line line).
Proof.
  intros line N I. destruct (trim_text line) as (sp & rest & Q & _). apply N. rewrite Q. apply in_or_app. right. apply in_or_app. left. exact I.
Qed.
Lemma uids_unique : forall E rest x l x' l', uids_of E rest x l -> uids_of E rest x' l' -> x = x' /\ l = l'.
Proof.
  intros E rest x l x' l' [(-> & -> & ->)|(u & r & k & -> & H & ->)] [(Q & -> & ->)|(u' & r' & k' & Q & H' & ->)]; [auto|discriminate|discriminate|].
  injection Q as <- <-. destruct H as [(-> & ->)|(-> & -> & N)]; destruct H' as [(-> & E')|(-> & E' & N')].
  - injection E' as <-. auto.
  - destruct (N' k eq_refl).
  - destruct (N _ E').
  - subst k'. auto.
Qed.
Lemma empty_start_dec : forall h u s, empty_start h u s \/ ~ empty_start h u s.
Proof.
  intros h u s. unfold empty_start.
  assert (D : forall (x n : cstr), (x = [] /\ exists r, s = n ++ r)%list \/ ~ (x = [] /\ exists r, s = n ++ r)%list).
  { intros x n. destruct x as [|c x]; [|right; intros [Q _]; discriminate]. destruct (skip_prefix n s) as [r|] eqn:K; [left|right].
    - split; [reflexivity|]. exists r. apply skip_prefix_some. exact K.
    - intros (_ & r & Q). apply (proj2 (skip_prefix_some _ _ _)) in Q. congruence. }
  destruct (D h (lit "$HOME")) as [A|A]; [auto|]. destruct (D u (lit "$USER")) as [B|B]; [auto|]. right. intros [X|X]; auto.
Qed.
Definition opened (E : env) (dir rdir prefix : cstr) (rest : list cstr) (q : poly) : poly :=
  let '(excl, uids) := match rest with u :: _ => parse_uids E u | [] => (false, []) end in
  mkPoly dir rdir prefix (p_method q) uids excl (p_create q) (p_noinit q) (p_shared q) (p_iscript q) (p_mntopts q) (p_script q) (p_opts q) (p_mflags q) (p_owner q) (p_group q) (p_mode q).
Definition acceptable (dir rdir prefix : cstr) (q : poly) : Prop :=
  (exists r, dir = "/"%char :: r) /\ rdir <> [] /\ dotfree dir /\ dotfree prefix /\ (p_method q = TMPFS \/ exists r, prefix = "/"%char :: r) /\
  (Z.of_nat (length dir) < 4096)%Z /\ (Z.of_nat (length rdir) < 4096)%Z /\ (Z.of_nat (length prefix) < 4096)%Z.
Lemma process_cases : forall E user ruser ignore line, ~ In NUL line ->
  (process_line E user ruser ignore line = UB /\ undefined_line user ruser line) \/
  (~ undefined_line user ruser line /\ process_line E user ruser ignore line = Ok (None, if match trim_line line with [] => true | _ => ignore end then 0%Z else PAM_SERVICE_ERR) /\ forall p, ~ entry E user ruser line p) \/
  (~ undefined_line user ruser line /\ exists p, process_line E user ruser ignore line = Ok (Some p, 0%Z) /\ forall p', entry E user ruser line p' <-> p' = p).
Proof.
  intros E [u h] [ru rh] ignore line NL. unfold undefined_line. cbn [fst snd]. pose proof (trim_text line) as TT. pose proof (trim_nul line NL) as NT.
  assert (UT : forall t, text_of line t -> t = trim_line line) by (intros t Ht; symmetry; apply text_trim; exact Ht).
  destruct (argv_parse_total (trim_line line) NT) as (ws & AP & QW).
  assert (UW : forall ws', qwords (trim_line line) ws' -> ws' = ws) by (intros ws' Q; apply ns_words in Q; [congruence|exact NT]).
  assert (FEW : (forall cd cp m rest, ws <> cd :: cp :: m :: rest) ->
     ~ (exists t cd cp m rest, text_of line t /\ qwords t (cd :: cp :: m :: rest) /\ (empty_start rh ru cd \/ empty_start h u cd \/ empty_start h u cp \/ (cd <> [] /\ words (lit ":") m []))) /\
     forall p, ~ entry E (u, h) (ru, rh) line p).
  { intro F. split.
    - intros (t & cd & cp & m & rest & Ht & Q & _). apply UT in Ht. subst t. apply UW in Q. symmetry in Q. destruct (F _ _ _ _ Q).
    - intros p (t & cd & cp & m & rest & dir & rdir & q & Ht & Q & _). apply UT in Ht. subst t. apply UW in Q. symmetry in Q. destruct (F _ _ _ _ Q). }
  unfold process_line. cbn [fst snd]. destruct (trim_line line) as [|c0 l0] eqn:TL.
  { right; left. assert (F : ws = []) by (cbn in AP; congruence). destruct FEW as [A B]; [subst ws; discriminate|]. split; [exact A|]. split; [reflexivity|exact B]. }
  rewrite AP. cbn [bind]. change [(lit "HOME", rh); (lit "USER", ru)] with (vars rh ru). change [(lit "HOME", h); (lit "USER", u)] with (vars h u).
  destruct ws as [|cd [|cp [|m rest]]].
  { right; left. destruct FEW as [A B]; [discriminate|]. split; [exact A|]. split; [destruct ignore; reflexivity|exact B]. }
  { right; left. destruct FEW as [A B]; [discriminate|]. split; [exact A|]. split; [destruct ignore; reflexivity|exact B]. }
  { right; left. destruct FEW as [A B]; [discriminate|]. split; [exact A|]. split; [destruct ignore; reflexivity|exact B]. }
  clear FEW AP.
  destruct (empty_start_dec rh ru cd) as [D1|D1].
  { left. rewrite (proj2 (proj2 (ns_variables rh ru cd)) D1). split; [reflexivity|]. exists (c0 :: l0), cd, cp, m, rest. auto. }
  destruct (expands_total rh ru (length cd) cd (Nat.le_refl _)) as [rdir X1]. rewrite (proj2 (proj1 (ns_variables rh ru cd) rdir) (conj X1 D1)). cbn [bind].
  destruct (empty_start_dec h u cd) as [D2|D2].
  { left. rewrite (proj2 (proj2 (ns_variables h u cd)) D2). split; [reflexivity|]. exists (c0 :: l0), cd, cp, m, rest. auto. }
  destruct (expands_total h u (length cd) cd (Nat.le_refl _)) as [dir X2]. rewrite (proj2 (proj1 (ns_variables h u cd) dir) (conj X2 D2)). cbn [bind].
  destruct (empty_start_dec h u cp) as [D3|D3].
  { left. rewrite (proj2 (proj2 (ns_variables h u cp)) D3). split; [reflexivity|]. exists (c0 :: l0), cd, cp, m, rest. auto 10. }
  destruct (expands_total h u (length cp) cp (Nat.le_refl _)) as [prefix X3]. pose proof (proj2 (proj1 (ns_variables h u cp) prefix) (conj X3 D3)) as E3. rewrite E3. cbn [bind].
  assert (UX1 : forall t, expands rh ru cd t -> t = rdir).
  { intros t Ht. pose proof (proj2 (proj1 (ns_variables rh ru cd) t) (conj Ht D1)) as Y. rewrite (proj2 (proj1 (ns_variables rh ru cd) rdir) (conj X1 D1)) in Y. congruence. }
  assert (UX2 : forall t, expands h u cd t -> t = dir).
  { intros t Ht. pose proof (proj2 (proj1 (ns_variables h u cd) t) (conj Ht D2)) as Y. rewrite (proj2 (proj1 (ns_variables h u cd) dir) (conj X2 D2)) in Y. congruence. }
  assert (UX3 : forall t, expands h u cp t -> t = prefix) by (intros t Ht; pose proof (proj2 (proj1 (ns_variables h u cp) t) (conj Ht D3)) as Y; rewrite E3 in Y; congruence). clear E3.
  assert (Z2 : strip_slashes dir = [] <-> cd = []).
  { rewrite <- (expands_nonempty h u cd dir X2 D2). destruct dir; [split; reflexivity|]. split; discriminate. }
  assert (Z1 : strip_slashes rdir = [] <-> cd = []).
  { rewrite <- (expands_nonempty rh ru cd rdir X1 D1). destruct rdir; [split; reflexivity|]. split; discriminate. }
  assert (NU : (cd <> [] -> ~ words (lit ":") m []) ->
     ~ (exists t cd cp m rest, text_of line t /\ qwords t (cd :: cp :: m :: rest) /\ (empty_start rh ru cd \/ empty_start h u cd \/ empty_start h u cp \/ (cd <> [] /\ words (lit ":") m [])))).
  { intros NW (t & cd' & cp' & m' & rest' & Ht & Q & Y). apply UT in Ht. subst t. apply UW in Q. injection Q as -> -> -> ->. destruct Y as [Y|[Y|[Y|[Y1 Y2]]]]; [auto|auto|auto|exact (NW Y1 Y2)]. }
  pose proof (proj1 (stripped_iff dir _) eq_refl) as SD. pose proof (proj1 (stripped_iff rdir _) eq_refl) as SR.
  assert (EQ : forall p, entry E (u, h) (ru, rh) line p <-> exists q, parse_method E m = Ok (Some q) /\ acceptable (strip_slashes dir) (strip_slashes rdir) prefix q /\ p = opened E (strip_slashes dir) (strip_slashes rdir) prefix rest q).
  { intro p. split.
    - intros (t & cd' & cp' & m' & rest' & dir' & rdir' & q & Ht & Q & A1 & A2 & A3 & A4 & A5 & A6 & A7 & A8 & A9 & A10 & A11 & A12 & A13 & A14 & A15 & B).
      apply UT in Ht. subst t. apply UW in Q. injection Q as -> -> -> ->. cbn [fst snd] in *. apply UX2 in A1. apply UX1 in A3. apply UX3 in A5. subst dir' rdir'. apply stripped_iff in A2. apply stripped_iff in A4.
      exists q. split; [exact A6|]. destruct B as (B1 & B2 & B3 & B4 & B5 & B6 & B7 & B8 & B9 & B10 & B11 & B12). split; [unfold acceptable; rewrite A2, A4, <- A5, <- B1; auto 12|].
      unfold opened. assert (Y : match rest with u :: _ => parse_uids E u | [] => (false, []) end = (p_exclusive p, p_uids p)).
      { destruct rest as [|y rest]; [destruct A15 as [(_ & -> & ->)|(? & ? & ? & Q & _)]; [reflexivity|discriminate]|].
        destruct (uids_unique E _ _ _ _ _ A15 (parse_uids_of E y rest)) as [-> ->]. destruct (parse_uids E y). reflexivity. }
      rewrite Y, A2, A4, <- A5, <- B1, <- B2, <- B3, <- B4, <- B5, <- B6, <- B7, <- B8, <- B9, <- B10, <- B11, <- B12. destruct p; reflexivity.
    - intros (q & A & (B1 & B2 & B3 & B4 & B5 & B6 & B7 & B8) & ->). exists (c0 :: l0), cd, cp, m, rest, dir, rdir, q. unfold opened.
      assert (Y : uids_of E rest (fst match rest with u :: _ => parse_uids E u | [] => (false, []) end) (snd match rest with u :: _ => parse_uids E u | [] => (false, []) end)).
      { destruct rest as [|y rest]; [left; auto|]. apply parse_uids_of. }
      destruct (match rest with u :: _ => parse_uids E u | [] => (false, []) end) as [xx ll]. cbn [fst snd] in Y. cbn [p_dir p_rdir p_prefix p_method p_uids p_exclusive p_create p_noinit p_shared p_iscript p_mntopts p_script p_opts p_mflags p_owner p_group p_mode fst snd]. repeat (split; [first [assumption|reflexivity]|]). reflexivity. }
  destruct (strip_slashes dir) as [|d0 dr] eqn:SDE.
  { assert (C0 : cd = []) by (apply Z2; reflexivity). right; left. split; [apply NU; congruence|]. split; [destruct ignore; reflexivity|].
    intros p Hp. apply EQ in Hp. destruct Hp as (q & _ & ((r & Q) & _) & _). discriminate. }
  destruct (strip_slashes rdir) as [|r0 rr] eqn:SRE.
  { assert (C0 : cd = []) by (apply Z1; reflexivity). apply Z2 in C0. discriminate. }
  destruct (ns_method E m) as (MU & MN & _). destruct (parse_method E m) as [[q|]| |] eqn:PM; cbn [bind].
  - right.
    assert (NW : ~ undefined_line (u, h) (ru, rh) line).
    { apply NU. intros _ Y. apply MU in Y. discriminate. }
    assert (NE : ~ acceptable (d0 :: dr) (r0 :: rr) prefix q -> forall p, ~ entry E (u, h) (ru, rh) line p).
    { intros NA p Hp. apply EQ in Hp. destruct Hp as (q' & Q & A & _). injection Q as <-. auto. }
    unfold fits, PATH_MAX. destruct (Z.ltb_spec (Z.of_nat (length (d0 :: dr))) 4096) as [L1|L1]; cbn [andb negb].
    2:{ left. split; [exact NW|]. split; [destruct ignore; reflexivity|]. apply NE. intros (_ & _ & _ & _ & _ & Y & _). lia. }
    destruct (Z.ltb_spec (Z.of_nat (length (r0 :: rr))) 4096) as [L2|L2]; cbn [andb negb].
    2:{ left. split; [exact NW|]. split; [destruct ignore; reflexivity|]. apply NE. intros (_ & _ & _ & _ & _ & _ & Y & _). lia. }
    destruct (Z.ltb_spec (Z.of_nat (length prefix)) 4096) as [L3|L3]; cbn [andb negb].
    2:{ left. split; [exact NW|]. split; [destruct ignore; reflexivity|]. apply NE. intros (_ & _ & _ & _ & _ & _ & _ & Y). lia. }
    destruct (Ascii.eqb_spec d0 "/"%char) as [->|DD]; cbn [negb].
    2:{ left. split; [exact NW|]. split; [destruct ignore; reflexivity|]. apply NE. intros ((r & Y) & _). congruence. }
    destruct (match p_method q with TMPFS => false | _ => negb (Ascii.eqb (hd NUL prefix) "/"%char) end) eqn:PP.
    { left. split; [exact NW|]. split; [destruct ignore; reflexivity|]. apply NE. intros (_ & _ & _ & _ & [Y|(r & Y)] & _); [rewrite Y in PP; discriminate|]. rewrite Y in PP. destruct (p_method q); discriminate. }
    assert (PQ : p_method q = TMPFS \/ exists r, prefix = "/"%char :: r).
    { destruct (p_method q); auto; right; (destruct prefix as [|x prefix]; [discriminate|]; cbn [hd] in PP; destruct (Ascii.eqb_spec x "/"%char) as [->|]; [eauto|discriminate]). }
    destruct (strstr (lit "..") ("/"%char :: dr)) eqn:S1.
    { left. split; [exact NW|]. split; [destruct ignore; reflexivity|]. apply NE. intros (_ & _ & Y & _). apply dotfree_iff in Y. congruence. }
    destruct (strstr (lit "..") prefix) eqn:S2.
    { left. split; [exact NW|]. split; [destruct ignore; reflexivity|]. apply NE. intros (_ & _ & _ & Y & _). apply dotfree_iff in Y. congruence. }
    right. split; [exact NW|]. exists (opened E ("/"%char :: dr) (r0 :: rr) prefix rest q). split.
    + unfold opened. destruct (match rest with u :: _ => parse_uids E u | [] => (false, []) end) as [xx ll]. destruct q; reflexivity.
    + intro p'. rewrite EQ. split; [intros (q' & Q & _ & ->); injection Q as <-; reflexivity|]. intros ->. exists q. split; [reflexivity|]. split; [|reflexivity].
      unfold acceptable. apply dotfree_iff in S1. apply dotfree_iff in S2. repeat split; eauto; discriminate.
  - right; left. split; [apply NU; intros _ Y; apply MU in Y; discriminate|]. split; [destruct ignore; reflexivity|].
    intros p Hp. apply EQ in Hp. destruct Hp as (q & Q & _). discriminate.
  - left. split; [reflexivity|]. exists (c0 :: l0), cd, cp, m, rest. split; [exact TT|]. split; [exact QW|]. right; right; right. split; [intro C0; apply Z2 in C0; discriminate|]. apply MU. reflexivity.
  - exfalso. clear - PM. unfold parse_method in PM. destruct (strtoks (lit ":") m); [discriminate|]. destruct (method_of c); [|discriminate]. rewrite parse_flags_result in PM. discriminate.
Qed.
(** A line gives the entry it describes, or none; without PAMNS_IGN_CONFIG_ERR only a line without text may give none. *)
Theorem ns_line : forall E user ruser ignore line, ~ In NUL line ->
  (process_line E user ruser ignore line = UB <-> undefined_line user ruser line) /\
  (forall p r, process_line E user ruser ignore line = Ok (Some p, r) <-> r = 0%Z /\ entry E user ruser line p /\ ~ undefined_line user ruser line) /\
  (forall r, process_line E user ruser ignore line = Ok (None, r) <-> (forall p, ~ entry E user ruser line p) /\ ~ undefined_line user ruser line /\
     ((ignore = true \/ text_of line []) /\ r = 0%Z \/ ignore = false /\ ~ text_of line [] /\ r = PAM_SERVICE_ERR)).
Proof.
  intros E user ruser ignore line NL.
  assert (TX : text_of line [] <-> trim_line line = []) by (split; [apply text_trim|intro Q; rewrite <- Q; apply trim_text]).
  destruct (process_cases E user ruser ignore line NL) as [(P & U)|[(U & P & N)|(U & p & P & N)]]; rewrite P.
  - split; [tauto|]. split; [|split; [discriminate|tauto]]. intros. split; [discriminate|tauto].
  - split; [split; [discriminate|tauto]|]. split; [intros p r; split; [discriminate|intros (_ & X & _); destruct (N _ X)]|].
    intro r. split.
    + intros [= <-]. split; [exact N|]. split; [exact U|]. rewrite TX. destruct (trim_line line), ignore; intuition congruence.
    + intros (_ & _ & X). rewrite TX in X. destruct (trim_line line), ignore; intuition (congruence || discriminate).
  - split; [split; [discriminate|tauto]|]. split.
    + intros p' r. split; [intros [= <- <-]; split; [reflexivity|]; split; [apply N; reflexivity|exact U]|]. intros (-> & X & _). apply N in X. subst p'. reflexivity.
    + intro r. split; [discriminate|]. intros (X & _). destruct (X p). apply N. reflexivity.
Qed.
(** The lines of the files, one after the other. *)
Inductive collects (E : env) (user ruser : cstr * cstr) : list cstr -> list poly -> Prop :=
| co_nil : collects E user ruser [] []
| co_skip : forall line lines l, (forall p, ~ entry E user ruser (cut line) p) -> collects E user ruser lines l -> collects E user ruser (line :: lines) l
| co_take : forall line lines p l, entry E user ruser (cut line) p -> collects E user ruser lines l -> collects E user ruser (line :: lines) (p :: l).
Definition good_line (E : env) (user ruser : cstr * cstr) (ignore : bool) (line : cstr) : Prop :=
  ~ undefined_line user ruser (cut line) /\ (ignore = true \/ text_of (cut line) [] \/ exists p, entry E user ruser (cut line) p).
Lemma parse_lines_iff : forall E user ruser ignore lines before l, parse_lines E user ruser ignore lines before = Ok (Some l) <->
  exists new, l = (before ++ new)%list /\ collects E user ruser lines new /\ Forall (good_line E user ruser ignore) lines.
Proof.
  intros E user ruser ignore. induction lines as [|line lines IH]; intros before l; cbn [parse_lines].
  - split.
    + intros [= ->]. exists []. rewrite app_nil_r. repeat split; constructor.
    + intros (new & -> & C & _). inversion C. rewrite app_nil_r. reflexivity.
  - pose proof (cut_no_nul line) as NL. destruct (ns_line E user ruser ignore (cut line) NL) as (LU & LS & LN).
    destruct (process_cases E user ruser ignore (cut line) NL) as [(P & U)|[(U & P & N)|(U & p & P & N)]]; rewrite P; cbn [bind].
    + split; [discriminate|]. intros (new & _ & _ & F). inversion F as [|? ? [G _] _]. destruct (G U).
    + destruct (match trim_line (cut line) with [] => true | _ => ignore end) eqn:K; cbn [Z.eqb].
      * rewrite ?Z.eqb_refl, IH. assert (G : good_line E user ruser ignore line).
        { split; [exact U|]. destruct (trim_line (cut line)) eqn:T; [|auto]. right; left. rewrite <- T. apply trim_text. }
        split; intros (new & Q & C & F); exists new; (split; [exact Q|]).
        -- split; [apply co_skip; assumption|constructor; assumption].
        -- inversion C as [|? ? ? N' C'|? ? p l' X C']; subst; [|destruct (N _ X)]. inversion F. auto.
      * change (PAM_SERVICE_ERR =? 0)%Z with false. split; [discriminate|]. intros (new & _ & _ & F). inversion F as [|? ? [_ G] _]. destruct G as [G|[G|(p & G)]]; [|apply text_trim in G|destruct (N _ G)].
        -- subst ignore. destruct (trim_line (cut line)); discriminate.
        -- rewrite G in K. discriminate.
    + rewrite Z.eqb_refl, IH. assert (Hp : entry E user ruser (cut line) p) by (apply N; reflexivity).
      assert (G : good_line E user ruser ignore line) by (split; [exact U|eauto]).
      split.
      * intros (new & -> & C & F). exists (p :: new). rewrite <- app_assoc. split; [reflexivity|]. split; [apply co_take; assumption|constructor; assumption].
      * intros (new & -> & C & F). inversion C as [|? ? ? N' C'|? ? p' l' X C']; subst; [destruct (N' _ Hp)|]. apply N in X. subst p'. exists l'. rewrite <- app_assoc. inversion F. auto.
Qed.
Lemma collects_app : forall E user ruser a b l, collects E user ruser (a ++ b) l <-> exists l1 l2, l = (l1 ++ l2)%list /\ collects E user ruser a l1 /\ collects E user ruser b l2.
Proof.
  intros E user ruser. induction a as [|x a IH]; intros b l; cbn [app].
  - split; [intro C; exists [], l; repeat split; [constructor|exact C]|]. intros (l1 & l2 & -> & C1 & C2). inversion C1. exact C2.
  - split.
    + intro C. inversion C as [|? ? ? N C'|? ? p l' X C']; subst; apply IH in C'; destruct C' as (l1 & l2 & -> & C1 & C2).
      * exists l1, l2. repeat split; [apply co_skip; assumption|exact C2].
      * exists (p :: l1), l2. repeat split; [apply co_take; assumption|exact C2].
    + intros (l1 & l2 & -> & C1 & C2). inversion C1 as [|? ? ? N C'|? ? p l' X C']; subst.
      * apply co_skip; [exact N|]. apply IH. eauto.
      * cbn [app]. apply co_take; [exact X|]. apply IH. eauto.
Qed.
(** The configuration is taken as a whole: the entries of all lines of all files in their order, or nothing. *)
Theorem ns_files : forall E user ruser ignore files l, parse_files E user ruser ignore files [] = Ok (Some l) <->
  exists fs, files = map Some fs /\ collects E user ruser (flat_map lines_of fs) l /\ Forall (good_line E user ruser ignore) (flat_map lines_of fs).
Proof.
  intros E user ruser ignore.
  assert (X : forall files before l, parse_files E user ruser ignore files before = Ok (Some l) <->
    exists fs new, files = map Some fs /\ l = (before ++ new)%list /\ collects E user ruser (flat_map lines_of fs) new /\ Forall (good_line E user ruser ignore) (flat_map lines_of fs)).
  { induction files as [|[f|] files IH]; intros before l; cbn [parse_files].
    - split.
      + intros [= ->]. exists [], []. rewrite app_nil_r. repeat split; constructor.
      + intros (fs & new & Q & -> & C & _). destruct fs; [|discriminate]. cbn in C. inversion C. rewrite app_nil_r. reflexivity.
    - destruct (parse_lines E user ruser ignore (lines_of f) before) as [[l0|]| |] eqn:P; cbn [bind].
      + apply parse_lines_iff in P. destruct P as (n1 & -> & C1 & F1). rewrite IH. split.
        * intros (fs & n2 & -> & -> & C2 & F2). exists (f :: fs), (n1 ++ n2)%list. cbn [map flat_map]. rewrite app_assoc. repeat split; [apply collects_app; eauto|apply Forall_app; auto].
        * intros (fs & new & Q & -> & C & F). destruct fs as [|f' fs]; [discriminate|]. injection Q as <- ->. cbn [flat_map] in C, F. apply collects_app in C. destruct C as (m1 & m2 & -> & D1 & D2).
          apply Forall_app in F. assert (Y : m1 = n1).
          { assert (A : parse_lines E user ruser ignore (lines_of f) [] = Ok (Some m1)) by (apply parse_lines_iff; exists m1; repeat split; tauto).
            assert (B : parse_lines E user ruser ignore (lines_of f) [] = Ok (Some n1)) by (apply parse_lines_iff; exists n1; repeat split; tauto). congruence. }
          subst m1. exists fs, m2. rewrite app_assoc. tauto.
      + split; [discriminate|]. intros (fs & new & Q & -> & C & F). destruct fs as [|f' fs]; [discriminate|]. injection Q as <- ->. cbn [flat_map] in C, F. apply collects_app in C. destruct C as (m1 & m2 & -> & D1 & D2).
        apply Forall_app in F. assert (A : parse_lines E user ruser ignore (lines_of f) before = Ok (Some (before ++ m1)%list)) by (apply parse_lines_iff; exists m1; repeat split; tauto). congruence.
      + split; [discriminate|]. intros (fs & new & Q & -> & C & F). destruct fs as [|f' fs]; [discriminate|]. injection Q as <- ->. cbn [flat_map] in C, F. apply collects_app in C. destruct C as (m1 & m2 & -> & D1 & D2).
        apply Forall_app in F. assert (A : parse_lines E user ruser ignore (lines_of f) before = Ok (Some (before ++ m1)%list)) by (apply parse_lines_iff; exists m1; repeat split; tauto). congruence.
      + split; [discriminate|]. intros (fs & new & Q & -> & C & F). destruct fs as [|f' fs]; [discriminate|]. injection Q as <- ->. cbn [flat_map] in C, F. apply collects_app in C. destruct C as (m1 & m2 & -> & D1 & D2).
        apply Forall_app in F. assert (A : parse_lines E user ruser ignore (lines_of f) before = Ok (Some (before ++ m1)%list)) by (apply parse_lines_iff; exists m1; repeat split; tauto). congruence.
    - split; [discriminate|]. intros (fs & new & Q & _). destruct fs; discriminate. }
  intros files l. rewrite X. split; [intros (fs & new & Q & -> & C); eauto|intros (fs & Q & C); exists fs, l; auto].
Qed.
(** Every directory that will be polyinstantiated is absolute, below PATH_MAX, without [..], and does not end in a slash unless it is the
    root; so is the prefix of its instances, unless the instance is a tmpfs. *)
Theorem ns_files_safe : forall E user ruser ignore files l p, parse_files E user ruser ignore files [] = Ok (Some l) -> In p l ->
  (exists r, p_dir p = "/"%char :: r) /\ dotfree (p_dir p) /\ (forall a, p_dir p = (a ++ ["/"%char])%list -> a = []) /\ (Z.of_nat (length (p_dir p)) < 4096)%Z /\
  dotfree (p_prefix p) /\ (Z.of_nat (length (p_prefix p)) < 4096)%Z /\ (p_method p = TMPFS \/ exists r, p_prefix p = "/"%char :: r).
Proof.
  intros E user ruser ignore files l p H I. apply ns_files in H. destruct H as (fs & _ & C & _).
  assert (X : exists line, entry E user ruser line p).
  { clear - C I. induction C as [|line lines l N C IH|line lines p' l X C IH]; [destruct I|auto|]. destruct I as [->|I]; eauto. }
  clear C I. destruct X as (line & t & cd & cp & m & rest & dir & rdir & q & _ & _ & _ & SD & _ & _ & _ & _ & A1 & _ & A2 & A3 & A4 & A5 & _ & A6 & _).
  repeat split; try assumption. intros a Q. destruct SD as [[_ S2]|(c & r & k & _ & N & S2)]; [rewrite S2 in A1; destruct A1; discriminate|].
  rewrite S2 in Q. destruct a as [|y a]; [reflexivity|]. injection Q as _ Q. exfalso. apply N. eauto.
Qed.
(** Whom an entry applies to. *)
Theorem ns_whom : forall p uid, ns_override p uid = false <-> (In uid (p_uids p) <-> p_exclusive p = true).
Proof.
  intros p uid. unfold ns_override.
  assert (X : existsb (Z.eqb uid) (p_uids p) = true <-> In uid (p_uids p)).
  { rewrite existsb_exists. split; [intros (x & I & Q); apply Z.eqb_eq in Q; subst; exact I|intro I; exists uid; split; [exact I|apply Z.eqb_refl]]. }
  destruct (existsb (Z.eqb uid) (p_uids p)), (p_exclusive p); cbn [negb]; intuition congruence.
Qed.

(** ** Examples *)
Definition E0 : env := mkEnv (fun n => if streq n (lit "root") then Some (0, 0)%Z else if streq n (lit "joe") then Some (1000, 100)%Z else None)
  (fun n => if streq n (lit "adm") then Some 4%Z else None) (fun n => if streq n (lit "0700") then Some 448%Z else None) (lit "/etc/security/namespace.d/").
Definition joe : cstr * cstr := (lit "joe", lit "/home/joe").
Definition root : cstr * cstr := (lit "root", lit "/root").
Example ns_line_example :
  process_line E0 joe root false (lit "  $HOME/tmp// ""/tmp inst/$USER/"" user:create=0700,root,adm:iscript=my.sh ~root,nobody,joe # why" ++ [c_nl])%list =
    Ok (Some (mkPoly (lit "/home/joe/tmp") (lit "/root/tmp") (lit "/tmp inst/joe/") USER [0; 1000]%Z true true false false true false
      (Some (lit "/etc/security/namespace.d/my.sh")) None 0 0 4 448), 0%Z) /\
  process_line E0 joe root false (lit "/tmp tmpfs tmpfs:mntopts=size=10M,noexec,nodev:noinit root") =
    Ok (Some (mkPoly (lit "/tmp") (lit "/tmp") (lit "tmpfs") TMPFS [0]%Z false false true false false true None (Some (lit "size=10M")) 12 0 0 0), 0%Z) /\
  process_line E0 joe root false (lit "/tmp/../etc /i user") = Ok (None, PAM_SERVICE_ERR) /\ process_line E0 joe root true (lit "tmp /i user") = Ok (None, 0%Z) /\
  process_line E0 joe root false (lit "/tmp i user") = Ok (None, PAM_SERVICE_ERR) /\ process_line E0 joe root false (lit "   # nothing") = Ok (None, 0%Z) /\
  process_line E0 joe root false (lit """/tmp#1"" /i user") = Ok (None, PAM_SERVICE_ERR) /\ process_line E0 joe root false (lit "/tmp /i user:create=,nobody") = Ok (None, PAM_SERVICE_ERR).
Proof. vm_compute. repeat split. Qed.
Example ns_method_example :
  (exists p, parse_method E0 (lit "level:shared:create=:noinit:create=0700,joe") = Ok (Some p) /\ p_method p = LEVEL /\ p_shared p = true /\ (p_mode p, p_owner p, p_group p) = (448, 1000, 100)%Z) /\
  parse_method E0 (lit "users") = Ok None /\ parse_method E0 (lit "::") = UB.
Proof. split; [|split; vm_compute; reflexivity]. eexists. split; [vm_compute; reflexivity|]. vm_compute. auto. Qed.
Example ns_files_example :
  exists p q, parse_files E0 joe root false [Some (lit "/tmp /i/ user root" ++ [c_nl])%list; Some (lit "# x" ++ [c_nl] ++ lit "/var/tmp /j/ tmpdir")%list] [] = Ok (Some [p; q]) /\
    p_dir p = lit "/tmp" /\ p_dir q = lit "/var/tmp" /\ map (ns_override p) [0; 1000]%Z = [true; false] /\ ns_override q 0 = false.
Proof. eexists. eexists. split; [vm_compute; reflexivity|]. vm_compute. auto. Qed.
Example ns_files_fail_example :
  parse_files E0 joe root false [Some (lit "/tmp /i/ user" ++ [c_nl])%list; Some (lit "oops")] [] = Ok None /\ parse_files E0 joe root true [Some (lit "/tmp /i/ user"); None] [] = Ok None.
Proof. vm_compute. auto. Qed.
(** A word that begins with a variable whose value is empty is undefined: the C code looks at the byte before the buffer. *)
Theorem ns_empty_home_refuted : exists line, ~ In NUL line /\ process_line E0 (lit "joe", []) root false line = UB /\ process_line E0 joe root false line <> UB.
Proof. exists (lit "$HOME/tmp /i/ user"). split; [vm_compute; intuition discriminate|]. split; [vm_compute; reflexivity|vm_compute; discriminate]. Qed.
(** So is a method of colons only. *)
Theorem ns_empty_method_refuted : exists line, ~ In NUL line /\ process_line E0 joe root true line = UB.
Proof. exists (lit "/tmp /i/ """""). split; [vm_compute; intuition discriminate|]. vm_compute. reflexivity. Qed.
(** A flag is any word that begins with its name. *)
Theorem ns_flag_prefix_refuted : exists p, parse_method E0 (lit "user:noinitially:createddir") = Ok (Some p) /\ p_noinit p = true /\ p_create p = true.
Proof. eexists. split; [vm_compute; reflexivity|]. auto. Qed.
(** The directory of the remote user is not looked at for [..], nor for an initial slash. *)
Theorem ns_rdir_refuted : exists ruser line p, process_line E0 joe ruser false line = Ok (Some p, 0%Z) /\ ~ dotfree (p_rdir p) /\ forall r, p_rdir p <> "/"%char :: r.
Proof.
  exists (lit "eve", lit "../x"), (lit "$HOME /i/ user"). eexists. split; [vm_compute; reflexivity|]. cbn [p_rdir]. split; [|discriminate]. intro D. exact (D [] (lit "/x") eq_refl).
Qed.

Print Assumptions ns_words.
Print Assumptions ns_variables.
Print Assumptions ns_mntopts.
Print Assumptions ns_method.
Print Assumptions ns_line.
Print Assumptions ns_files.
Print Assumptions ns_files_safe.
Print Assumptions ns_whom.
