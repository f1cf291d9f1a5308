(** Lemmas for Time_Props. *)
From Coq Require Import String Ascii List Arith NArith ZArith Bool Lia.
From Verif Require Import Base Time_Model Time_Spec.
Import ListNotations.
Local Open Scope nat_scope.

(** ** Tokens *)
Lemma in_name_eq : forall c, in_name c = name_char c.
Proof.
  intro c; unfold in_name, name_char, isalnum; cbn [existsb].
  destruct (isalpha c), (isdigit c), (Ascii.eqb c "*"), (Ascii.eqb c "_"), (Ascii.eqb c "-"), (Ascii.eqb c "."), (Ascii.eqb c "/"), (Ascii.eqb c ":"); reflexivity.
Qed.
Lemma an_operator_eq : forall c, an_operator c = oper_char c.
Proof.
  intro c; unfold an_operator, oper_char; cbn [existsb].
  destruct (Ascii.eqb c "&"), (Ascii.eqb c "|"), (Ascii.eqb c "!"); reflexivity.
Qed.
Lemma oper_cases : forall c, oper_char c = true -> c = "&"%char \/ c = "|"%char \/ c = "!"%char.
Proof.
  intros c H; unfold oper_char in H; rewrite !orb_true_iff in H.
  destruct H as [[H|H]|H]; apply Ascii.eqb_eq in H; auto.
Qed.
Lemma oper_not_name : forall c, oper_char c = true -> name_char c = false.
Proof. intros c H; destruct (oper_cases c H) as [-> |[-> | ->]]; reflexivity. Qed.
Lemma name_not_oper : forall c, name_char c = true -> oper_char c = false.
Proof. intros c H; destruct (oper_char c) eqn:E; [|reflexivity]. rewrite (oper_not_name c E) in H; discriminate. Qed.

Definition token_text (t : token) : cstr := match t with TName n => n | TOper c => [c] end.

Lemma tokens_name : forall s c, name_char c = true ->
  tokens (c :: s) = TName (c :: firstn (name_length s) s) :: tokens (skipn (name_length s) s).
Proof.
  induction s as [|d s IH]; intros c Hc; cbn [tokens name_length firstn skipn].
  - rewrite an_operator_eq, (name_not_oper c Hc), in_name_eq, Hc; reflexivity.
  - rewrite an_operator_eq, (name_not_oper c Hc), in_name_eq, Hc.
    destruct (name_char d) eqn:Hd.
    + change (if an_operator d then TOper d :: tokens s else _) with (tokens (d :: s)).
      rewrite (IH d Hd). cbn [begins]. rewrite in_name_eq, Hd. reflexivity.
    + cbn [firstn skipn]. change (if an_operator d then TOper d :: tokens s else _) with (tokens (d :: s)).
      cbn [begins]. rewrite in_name_eq, Hd. destruct (tokens (d :: s)) as [|[n|o] ts]; reflexivity.
Qed.
Lemma tokens_oper : forall s c, oper_char c = true -> tokens (c :: s) = TOper c :: tokens s.
Proof. intros s c H; cbn [tokens]; rewrite an_operator_eq, H; reflexivity. Qed.
Lemma tokens_other : forall s c, oper_char c = false -> name_char c = false -> tokens (c :: s) = tokens s.
Proof. intros s c H H'; cbn [tokens]; rewrite an_operator_eq, H, in_name_eq, H'; reflexivity. Qed.

Lemma name_length_le : forall s, name_length s <= length s.
Proof. induction s as [|c s IH]; cbn [name_length length]; [lia|destruct (name_char c); lia]. Qed.
Lemma name_length_stop : forall s, begins in_name (skipn (name_length s) s) = false.
Proof.
  induction s as [|c s IH]; [reflexivity|]. cbn [name_length].
  destruct (name_char c) eqn:E; [exact IH|]. cbn [skipn begins]. rewrite in_name_eq; exact E.
Qed.

(** logic_member finds the first token. *)
Lemma member_tokens : forall x,
  match tokens x with
  | [] => snd (logic_member x) = O
  | t :: ts => exists r, logic_member x = ((token_text t ++ r)%list, length (token_text t)) /\ tokens r = ts /\ length r < length x /\
                 match t with TName n => begins in_name r = false /\ forallb name_char n = true /\ n <> [] | TOper c => oper_char c = true end
  end.
Proof.
  induction x as [|c x IH]; [reflexivity|]. cbn [logic_member].
  destruct (oper_char c) eqn:Ho.
  - rewrite (tokens_oper x c Ho). exists x. repeat split; auto.
  - destruct (name_char c) eqn:Hn.
    + rewrite (tokens_name x c Hn). exists (skipn (name_length x) x). cbn [token_text length].
      rewrite firstn_length_le by apply name_length_le. rewrite <- app_comm_cons, firstn_skipn. repeat split.
      * rewrite skipn_length; cbn [length]; lia.
      * apply name_length_stop.
      * cbn [forallb]; rewrite Hn; cbn [andb]. clear. induction x as [|c x IH]; [reflexivity|]. cbn [name_length].
        destruct (name_char c) eqn:E; [|reflexivity]. cbn [firstn forallb]; rewrite E; exact IH.
      * discriminate.
    + rewrite (tokens_other x c Ho Hn). destruct (tokens x) as [|t ts]; [exact IH|].
      destruct IH as (r & E1 & E2 & E3 & E4). exists r. repeat split; auto. cbn [length]; lia.
Qed.

(** logic_field as a function of the tokens. *)
Fixpoint ev (m : cstr -> bool) (ts : list token) (left not or val : bool) : bool :=
  match ts with
  | [] => left
  | t :: ts =>
    if val then match t with
                | TOper c => if Ascii.eqb c "!"%char then ev m ts left (negb not) or true else false
                | TName n => ev m ts (if or then left || xorb not (m n) else left && xorb not (m n)) not or false
                end
    else match t with
         | TOper c => if Ascii.eqb c "&"%char then ev m ts left false false true
                      else if Ascii.eqb c "|"%char then ev m ts left false true true else false
         | TName _ => false
         end
  end.

Definition agree_on (agrees : cstr -> nat -> res bool) (m : cstr -> bool) (ts : list token) : Prop :=
  forall n r, In (TName n) ts -> forallb name_char n = true -> begins in_name r = false -> agrees (n ++ r)%list (length n) = Ok (m n).

Lemma name_not_bang : forall n r c s, forallb name_char n = true -> n <> [] -> (n ++ r)%list = c :: s ->
  name_char c = true.
Proof.
  intros [|d n] r c s H N E; [congruence|]. cbn in E; inversion E; subst. cbn [forallb] in H; apply andb_true_iff in H; tauto.
Qed.

Lemma logic_loop_ev : forall agrees m fuel x left not or val, length x < fuel -> agree_on agrees m (tokens x) ->
  logic_loop agrees fuel x left not or val = Ok (ev m (tokens x) left not or val).
Proof.
  intros agrees m; induction fuel as [|fuel IH]; intros x left not or val Hf Ha; [lia|].
  cbn [logic_loop]. pose proof (member_tokens x) as M.
  destruct (tokens x) as [|t ts] eqn:Et.
  - destruct (logic_member x) as [y l]; cbn [snd] in M; subst l. cbn [ev]. destruct y; reflexivity.
  - destruct M as (r & E & Er & Hl & Ht). rewrite E.
    assert (Ha' : agree_on agrees m (tokens r)) by (rewrite Er; intros n q Hn; apply Ha; right; exact Hn).
    assert (Hf' : length r < fuel) by lia.
    destruct t as [n|c]; cbn [token_text] in *.
    + destruct Ht as (Hr & Hn & Hne). destruct n as [|c n]; [congruence|].
      pose proof Hn as Hn'. cbn [forallb] in Hn'. apply andb_true_iff in Hn'. destruct Hn' as [Hc _].
      pose proof (name_not_oper c Hc) as Ho. unfold oper_char in Ho. rewrite !orb_false_iff in Ho. destruct Ho as [[Ho1 Ho2] Ho3].
      cbn [app length]. rewrite Ho1, Ho2, Ho3, Hc. cbn [ev].
      destruct val; [|reflexivity].
      pose proof (Ha (c :: n) r (or_introl eq_refl) Hn Hr) as A. cbn [app length] in A. rewrite A. cbn [bind].
      replace (skipn (S (length n)) (c :: n ++ r)%list) with r
        by (cbn [skipn]; clear; induction n as [|d n IHn]; [reflexivity|exact IHn]).
      rewrite (IH r) by assumption. rewrite Er. reflexivity.
    + cbn [app length skipn]. cbn [ev].
      rewrite (oper_not_name c Ht).
      destruct val.
      * destruct (Ascii.eqb c "!"%char); [|reflexivity]. rewrite (IH r) by assumption. rewrite Er. reflexivity.
      * destruct (Ascii.eqb c "&"%char); [rewrite (IH r) by assumption; rewrite Er; reflexivity|].
        destruct (Ascii.eqb c "|"%char); [rewrite (IH r) by assumption; rewrite Er; reflexivity|reflexivity].
Qed.
Lemma logic_field_ev : forall agrees m x, agree_on agrees m (tokens x) -> logic_field agrees x = Ok (ev m (tokens x) false false true true).
Proof. intros agrees m x H; unfold logic_field; apply logic_loop_ev; [lia|exact H]. Qed.

Lemma ev_nots : forall m k ts left not or, ev m (repeat (TOper "!"%char) k ++ ts)%list left not or true = ev m ts left (xorb not (Nat.odd k)) or true.
Proof.
  intros m; induction k as [|k IH]; intros ts left not or; cbn [repeat app].
  - rewrite xorb_false_r; reflexivity.
  - cbn [ev]. change (Ascii.eqb "!" "!") with true. cbv iota. rewrite IH. rewrite Nat.odd_succ, <- Nat.negb_odd.
    destruct not, (Nat.odd k); reflexivity.
Qed.
Lemma ev_term : forall m t ts left or, ev m (term_tokens t ++ ts)%list left false or true =
  ev m ts (if or then left || term_value m t else left && term_value m t) (Nat.odd (t_nots t)) or false.
Proof.
  intros m t ts left or; unfold term_tokens; rewrite <- app_assoc, ev_nots; cbn [app ev].
  unfold term_value. destruct (Nat.odd (t_nots t)), (m (t_name t)); reflexivity.
Qed.
Lemma ev_more : forall m more ts left not or,
  ev m (flat_map (fun '(a, t) => TOper (if (a : bool) then "&"%char else "|"%char) :: term_tokens t) more ++ ts)%list left not or false =
  ev m ts (fold_left (fun v '(a, t) => if (a : bool) then v && term_value m t else v || term_value m t) more left)
     (match more with [] => not | _ => Nat.odd (t_nots (snd (last more (true, mkTerm 0 [])))) end)
     (match more with [] => or | _ => negb (fst (last more (true, mkTerm 0 []))) end) false.
Proof.
  intros m more; induction more as [|[a t] more IH]; intros ts left not or; [reflexivity|].
  cbn [flat_map fold_left]. rewrite <- !app_assoc. cbn [app ev].
  assert (E : forall b, ev m (term_tokens t ++ flat_map (fun '(a, t) => TOper (if (a : bool) then "&"%char else "|"%char) :: term_tokens t) more ++ ts)%list left false b true =
    ev m ts (fold_left (fun v '(a, t) => if (a : bool) then v && term_value m t else v || term_value m t) more (if b then left || term_value m t else left && term_value m t))
     (match more with [] => Nat.odd (t_nots t) | _ => Nat.odd (t_nots (snd (last more (true, mkTerm 0 [])))) end)
     (match more with [] => b | _ => negb (fst (last more (true, mkTerm 0 []))) end) false).
  { intro b. rewrite ev_term, IH. reflexivity. }
  destruct a.
  - change (Ascii.eqb "&" "&") with true. cbv iota. rewrite (E false). destruct more as [|e more]; reflexivity.
  - change (Ascii.eqb "|" "&") with false. change (Ascii.eqb "|" "|") with true. cbv iota. rewrite (E true). destruct more as [|e more]; reflexivity.
Qed.
Lemma ev_logic : forall m l ts, exists not or, ev m (logic_tokens l ++ ts)%list false false true true = ev m ts (logic_value m l) not or false.
Proof.
  intros m l ts; unfold logic_tokens, logic_value. rewrite <- app_assoc, ev_term. cbn [orb].
  rewrite ev_more. eauto.
Qed.
Lemma ev_value : forall m l, ev m (logic_tokens l) false false true true = logic_value m l.
Proof. intros m l. destruct (ev_logic m l []) as (n & o & E). rewrite app_nil_r in E. exact E. Qed.

Lemma logic_names_tokens : forall l n, In (TName n) (logic_tokens l) -> In n (logic_names l).
Proof.
  intros [t more] n H; unfold logic_tokens, logic_names in *; cbn [l_first l_more] in *.
  assert (T : forall t, In (TName n) (term_tokens t) -> t_name t = n).
  { intros t' H'; unfold term_tokens in H'; apply in_app_iff in H'; destruct H' as [H'|[H'|[]]]; [|inversion H'; reflexivity].
    apply repeat_spec in H'; discriminate. }
  apply in_app_iff in H; destruct H as [H|H]; [left; auto|right].
  apply in_flat_map in H; destruct H as ([a t'] & H & [H'|H']); [discriminate|]. apply in_map_iff. exists (a, t'); cbn [snd]; auto.
Qed.

(** ** Names *)
Lemma name_not_nul : forall n, forallb name_char n = true -> ~ In NUL n.
Proof. intros n H I. rewrite forallb_forall in H. specialize (H NUL I). discriminate. Qed.
Lemma strneq_app : forall s r b, length b = length s -> strneq (length s) (s ++ r)%list b = streq b s.
Proof.
  induction s as [|c s IH]; intros r [|d b] H; cbn [length] in H; try discriminate; cbn [length strneq app streq]; [reflexivity|].
  rewrite IH by lia. rewrite (Ascii.eqb_sym c d). reflexivity.
Qed.
Lemma is_suffix_spec : forall p s, is_suffix p s = true <-> exists q, s = (q ++ p)%list.
Proof.
  intros p s; unfold is_suffix; rewrite is_prefix_spec; split; intros [r H].
  - exists (rev r). rewrite <- (rev_involutive s), H, rev_app_distr, rev_involutive. reflexivity.
  - exists (rev r). rewrite H, rev_app_distr. reflexivity.
Qed.
Lemma suffix_skipn : forall p s, length p <= length s -> streq (skipn (length s - length p) s) p = is_suffix p s.
Proof.
  intros p s H. apply eq_true_iff_eq. rewrite streq_eq, is_suffix_spec. split.
  - intro E. exists (firstn (length s - length p) s). rewrite <- E at 2. rewrite firstn_skipn; reflexivity.
  - intros [q ->]. rewrite app_length. replace (length q + length p - length p) with (length q + 0) by lia.
    rewrite skipn_app, skipn_all2 by lia. replace (length q + 0 - length q) with 0 by lia. reflexivity.
Qed.

Lemma same_loop_fits : forall n whole a r, ~ In NUL n -> ~ In "*"%char a ->
  match split_star n with None => True | Some (p, s) => is_prefix p a = true -> length s <= length whole end ->
  same_loop whole a (n ++ r)%list (length n) =
  Ok (match split_star n with None => streq a n | Some (p, s) => is_prefix p a && is_suffix s whole end).
Proof.
  induction n as [|c n IH]; intros whole a r Hn Ha Hf; cbn [length same_loop app split_star].
  - destruct a; reflexivity.
  - cbn [hd].
    assert (Hc : c <> NUL) by (intros ->; apply Hn; left; reflexivity).
    assert (Hn' : ~ In NUL n) by (intro I; apply Hn; right; exact I).
    destruct (Ascii.eqb c (hd NUL a)) eqn:E.
    + apply Ascii.eqb_eq in E. destruct a as [|d a]; cbn [hd] in E; [contradiction|]. subst d.
      assert (Hs : Ascii.eqb c "*"%char = false) by (apply Ascii.eqb_neq; intros ->; apply Ha; left; reflexivity).
      rewrite Hs. cbn [split_star] in Hf. rewrite Hs in Hf.
      match goal with |- ?l = _ => change l with (same_loop whole a (n ++ r)%list (length n)) end.
      rewrite (IH whole a r Hn').
      * destruct (split_star n) as [[p s]|]; cbn [is_prefix streq]; rewrite ?Ascii.eqb_refl; reflexivity.
      * intro I; apply Ha; right; exact I.
      * destruct (split_star n) as [[p s]|]; [|exact I]. cbn [is_prefix] in Hf. rewrite Ascii.eqb_refl in Hf. exact Hf.
    + cbn [split_star] in Hf. destruct (Ascii.eqb c "*"%char) eqn:Hs.
      * cbn [is_prefix andb]. specialize (Hf eq_refl). destruct (length n =? 0) eqn:Z.
        -- apply Nat.eqb_eq in Z. destruct n; [|discriminate]. unfold is_suffix. reflexivity.
        -- assert (L : (length whole <? length n) = false) by (apply Nat.ltb_ge; exact Hf). rewrite L. cbn [tl].
           rewrite strneq_app by (rewrite skipn_length; lia). rewrite suffix_skipn by exact Hf. reflexivity.
      * f_equal. destruct (split_star n) as [[p s]|].
        -- destruct a as [|d a]; cbn [is_prefix hd] in *; [reflexivity|rewrite E; reflexivity].
        -- destruct a as [|d a]; cbn [streq hd] in *; [reflexivity|]. rewrite Ascii.eqb_sym, E; reflexivity.
Qed.
Lemma is_same_fits : forall a n r, ~ In NUL n -> ~ In "*"%char a -> comparable a n -> is_same a (n ++ r)%list (length n) = Ok (fits a n).
Proof. intros a n r Hn Ha Hc; unfold is_same, fits. apply same_loop_fits; assumption. Qed.

(** ** Days *)
Definition mask_of (ds : list (list nat)) (k : N) : Prop :=
  forall d, (d < 8)%nat -> N.testbit k (N.of_nat d) = marked ds d && (d <? 7)%nat.
Definition bits_of (e : list nat) (k : N) : Prop := forall d, (d < 8)%nat -> N.testbit k (N.of_nat d) = existsb (Nat.eqb d) e && (d <? 7)%nat.

Lemma day_entry_bits : forall a b e, day_entry [tolower a; tolower b] = Some e ->
  exists k, day_bits a b = Some k /\ bits_of e k.
Proof.
  intros a b e; unfold day_entry, day_bits, days. cbn [find fst snd].
  repeat match goal with
  | |- context [streq (lit ?s) ?x] => destruct (streq (lit s) x);
      [intro H; inversion H; subst; eexists; split; [reflexivity|]; intros d Hd; do 8 (destruct d as [|d]; [reflexivity|]); lia|]
  end.
  discriminate.
Qed.
Lemma marked_cons : forall e ds d, marked (e :: ds) d = xorb (existsb (Nat.eqb d) e) (marked ds d).
Proof.
  intros e ds d; unfold marked; cbn [filter]. destruct (existsb (Nat.eqb d) e); [|rewrite xorb_false_l; reflexivity].
  cbn [length]. rewrite Nat.odd_succ, <- Nat.negb_odd. reflexivity.
Qed.
Lemma alpha_not_digit : forall c, isdigit c = true -> isalpha c = false.
Proof.
  intros c; unfold isalpha, isdigit, isupper, islower; intro H. apply andb_true_iff in H; destruct H as [H1 H2].
  apply Nat.leb_le in H1, H2. apply orb_false_iff; split; apply andb_false_iff; left; apply Nat.leb_gt; lia.
Qed.

(** Reading the days of a range. *)
Lemma day_loop_range : forall k n rg r fuel m len, (length n <= k)%nat -> parse_range n = Some rg -> (length n < fuel)%nat -> (length n <= len)%nat ->
  exists m' tail len',
    day_loop fuel m (n ++ r)%list len = Some (N.lxor m m', (tail ++ r)%list, len') /\
    mask_of (r_days rg) m' /\ (length tail <= len')%nat /\ parse_range tail = Some (mkRange [] (r_from rg) (r_to rg)) /\
    (match tail with c :: _ => isalpha c = false | [] => False end).
Proof.
  induction k as [|k IH]; intros n rg r fuel m len Hk Hp Hf Hl.
  { destruct n; [discriminate|cbn [length] in Hk; lia]. }
  destruct n as [|a [|b n]]; [discriminate|discriminate|].
  destruct fuel as [|fuel]; [lia|]. destruct len as [|len]; [cbn [length] in Hl; lia|].
  cbn [parse_range] in Hp. cbn [app day_loop hd tl]. destruct (isalpha a) eqn:Ea.
  - destruct (day_entry [tolower a; tolower b]) as [e|] eqn:Ee; [|discriminate].
    destruct (parse_range n) as [g|] eqn:Eg; [|discriminate]. inversion Hp; subst; clear Hp.
    destruct (day_entry_bits a b e Ee) as (q & Eq & Hq). rewrite Eq.
    cbn [length] in *.
    destruct (IH n g r fuel (N.lxor m q) len ltac:(lia) Eg ltac:(lia) ltac:(lia)) as (m' & tail & len' & E & Hm & Ht & Hpt & Hat).
    exists (N.lxor q m'), tail, len'. rewrite E, N.lxor_assoc. repeat split; try assumption.
    cbn [r_days]. intros d Hd. rewrite N.lxor_spec, (Hq d Hd), (Hm d Hd), marked_cons.
    destruct (existsb (Nat.eqb d) e), (marked (r_days g) d), (d <? 7)%nat; reflexivity.
  - exists 0%N, (a :: b :: n), (S len). rewrite N.lxor_0_r. split; [reflexivity|].
    assert (R : r_days rg = []).
    { revert Hp. do 8 (destruct n as [|? n]; try discriminate). destruct (_ && _); [|discriminate]. intro H; inversion H; reflexivity. }
    repeat split.
    + rewrite R. intros d _. rewrite N.bits_0. reflexivity.
    + exact Hl.
    + cbn [parse_range]. rewrite Ea, Hp. destruct rg as [ds f t]; cbn [r_days r_from r_to] in *; subst; reflexivity.
    + exact Ea.
Qed.

Lemma digit_step : forall n v k c s len, isdigit c = true -> (0 < len)%nat ->
  digit_loop (S n) v k (c :: s) len = digit_loop n (v * 10 + digit_val c)%Z (S k) s (pred len).
Proof. intros n v k c s [|len] H L; [lia|]. cbn [digit_loop pred]; rewrite H; reflexivity. Qed.
Lemma digit_stop : forall v k s len, digit_loop 0 v k s len = (v, k, s, len).
Proof. intros v k [|c s] [|len]; reflexivity. Qed.

Lemma land_bit : forall d m, (d < 8)%nat -> negb (N.land (N.shiftl 1 (N.of_nat d)) m =? 0)%N = N.testbit m (N.of_nat d).
Proof.
  intros d m _. destruct (N.testbit m (N.of_nat d)) eqn:E.
  - apply negb_true_iff, N.eqb_neq. intro Z.
    assert (N.testbit (N.land (N.shiftl 1 (N.of_nat d)) m) (N.of_nat d) = true).
    { rewrite N.land_spec, E, N.shiftl_spec_high' by lia. rewrite N.sub_diag. reflexivity. }
    rewrite Z, N.bits_0 in H; discriminate.
  - apply negb_false_iff, N.eqb_eq. apply N.bits_inj. intro i. rewrite N.land_spec, N.bits_0.
    destruct (N.eq_dec i (N.of_nat d)) as [-> | Ne]; [rewrite E, andb_false_r; reflexivity|].
    rewrite N.shiftl_1_l, N.pow2_bits_false by congruence. reflexivity.
Qed.
Lemma shifted_mask : forall ds m d, mask_of ds m -> (d < 7)%nat ->
  N.testbit (let q := N.shiftl m 1 in if negb (N.land q 128 =? 0)%N then N.lor q 1 else q) (N.of_nat d) = marked ds ((d + 6) mod 7).
Proof.
  intros ds m d Hm Hd. cbv zeta.
  change 128%N with (N.shiftl 1 (N.of_nat 7)). rewrite N.land_comm, land_bit by lia.
  rewrite N.shiftl_spec_high' by lia. change (N.of_nat 7 - 1)%N with (N.of_nat 6). rewrite (Hm 6%nat) by lia. change (6 <? 7)%nat with true. rewrite andb_true_r.
  destruct d as [|d].
  - change ((0 + 6) mod 7)%nat with 6%nat. destruct (marked ds 6) eqn:E.
    + rewrite N.lor_spec. change (N.testbit 1 (N.of_nat 0)) with true. apply orb_true_r.
    + apply N.shiftl_spec_low; lia.
  - replace ((S d + 6) mod 7)%nat with d by (do 7 (destruct d as [|d]; [reflexivity|]); lia).
    assert (B : N.testbit (N.shiftl m 1) (N.of_nat (S d)) = marked ds d).
    { rewrite N.shiftl_spec_high' by lia. replace (N.of_nat (S d) - 1)%N with (N.of_nat d) by lia.
      rewrite (Hm d) by lia. replace (d <? 7)%nat with true by (symmetry; apply Nat.ltb_lt; lia). apply andb_true_r. }
    destruct (marked ds 6); [|exact B]. rewrite N.lor_spec, B.
    replace (N.testbit 1 (N.of_nat (S d))) with false; [apply orb_false_r|].
    symmetry. change 1%N with (2 ^ 0)%N. apply N.pow2_bits_false. lia.
Qed.

Lemma check_time_range : forall d hm n rg r, (d < 7)%nat -> parse_range n = Some rg -> begins in_name r = false ->
  check_time (mkWhen (N.shiftl 1 (N.of_nat d)) hm) (n ++ r)%list (length n) = in_range d hm rg.
Proof.
  intros d hm n rg r Hd Hp Hr. unfold check_time.
  destruct n as [|c0 n0] eqn:En; [discriminate|].
  assert (Nb : Ascii.eqb c0 "!"%char = false).
  { destruct (Ascii.eqb c0 "!"%char) eqn:E; [|reflexivity].
    exfalso. apply Ascii.eqb_eq in E; subst c0. cbn [parse_range] in Hp. destruct n0 as [|c n0]; [discriminate|].
    change (isalpha "!") with false in Hp. cbv iota in Hp. do 8 (destruct n0 as [|? n0]; try discriminate). }
  cbn [app]. rewrite Nb. change (c0 :: n0 ++ r)%list with ((c0 :: n0) ++ r)%list. rewrite <- En in *. clear Nb.
  destruct (day_loop_range (length n) n rg r (S (length (n ++ r)%list)) 0 (length n) (le_n _) Hp ltac:(rewrite app_length; lia) (le_n _))
    as (m & tail & len & E & Hm & Hl & Ht & Ha).
  rewrite E, N.lxor_0_l. clear E.
  destruct (m =? 0)%N eqn:Z.
  { apply N.eqb_eq in Z; subst m. assert (M : forall d, (d < 7)%nat -> marked (r_days rg) d = false).
    { intros x Hx. specialize (Hm x ltac:(lia)). rewrite N.bits_0 in Hm.
      replace (x <? 7)%nat with true in Hm by (symmetry; apply Nat.ltb_lt; lia). rewrite andb_true_r in Hm. symmetry; exact Hm. }
    unfold in_range. rewrite (M d Hd), (M ((d + 6) mod 7)%nat) by (apply Nat.mod_upper_bound; lia). destruct (_ <? _)%Z; reflexivity. }
  destruct tail as [|c1 [|c2 tail]]; [contradiction|discriminate|]. cbn [parse_range] in Ht. rewrite Ha in Ht.
  destruct tail as [|c3 [|c4 [|h [|c5 [|c6 [|c7 [|c8 [|? ?]]]]]]]]; try discriminate.
  destruct (forallb isdigit [c1; c2; c3; c4; c5; c6; c7; c8] && Ascii.eqb h "-"%char) eqn:F; [|discriminate].
  apply andb_true_iff in F; destruct F as [F Fh]. cbn [forallb] in F. rewrite !andb_true_iff in F.
  destruct F as (F1 & F2 & F3 & F4 & F5 & F6 & F7 & F8 & _). apply Ascii.eqb_eq in Fh; subst h.
  cbn [length] in Hl. cbn [app].
  rewrite (digit_step 3) by (assumption || lia). rewrite (digit_step 2) by (assumption || lia).
  rewrite (digit_step 1) by (assumption || lia). rewrite (digit_step 0) by (assumption || lia). rewrite digit_stop.
  change (Ascii.eqb "-" "-") with true. cbv iota.
  rewrite (digit_step 3) by (assumption || lia). rewrite (digit_step 2) by (assumption || lia).
  rewrite (digit_step 1) by (assumption || lia). rewrite (digit_step 0) by (assumption || lia). rewrite digit_stop.
  change (4 =? 4)%nat with true. cbn [negb].
  inversion Ht as [[Hfrom Hto]]. clear Ht. unfold number in *. cbn [fold_left] in *.
  unfold in_range. cbn [w_day w_minute]. rewrite xorb_false_l. rewrite Hfrom, Hto.
  rewrite !land_bit by lia. pose proof (shifted_mask (r_days rg) m d Hm Hd) as Sh. cbv zeta in Sh |- *. rewrite Sh. rewrite (Hm d) by lia.
  replace (d <? 7)%nat with true by (symmetry; apply Nat.ltb_lt; lia). rewrite andb_true_r.
  destruct (r_from rg <? r_to rg)%Z; [reflexivity|].
  destruct (marked (r_days rg) d && (r_from rg <=? hm)%Z); reflexivity.
Qed.

(** ** White space *)
(** What read_field makes of the characters of a field. *)
Fixpoint collapse (on : bool) (s : cstr) : cstr :=
  match s with
  | [] => []
  | c :: s => if blank c then (if on then collapse true s else c_space :: collapse true s)
              else if Ascii.eqb c "!"%char then "!"%char :: collapse true s
              else c :: collapse false s
  end.
Fixpoint on_after (on : bool) (s : cstr) : bool :=
  match s with [] => on | c :: s => if blank c then on_after true s else if Ascii.eqb c "!"%char then on_after true s else on_after false s end.
Definition field_of (s : cstr) : cstr := trimmed (rev (collapse true s)).

Lemma blank_sep : forall c, blank c = true -> oper_char c = false /\ name_char c = false.
Proof.
  intros c H; unfold blank in H; apply orb_true_iff in H; destruct H as [H|H]; apply Ascii.eqb_eq in H; subst c; split; reflexivity.
Qed.
Lemma begins_name_sep : forall c s, name_char c = false -> begins in_name (c :: s) = false.
Proof. intros c s H; cbn [begins]; rewrite in_name_eq; exact H. Qed.

(** tokens only sees whether names touch. *)
Lemma tokens_cons : forall c s s', tokens s = tokens s' -> begins in_name s = begins in_name s' -> tokens (c :: s) = tokens (c :: s').
Proof. intros c s s' H H'; cbn [tokens]; rewrite H, H'; reflexivity. Qed.
Lemma tokens_cons_sep : forall c s s', name_char c = false -> tokens s = tokens s' -> tokens (c :: s) = tokens (c :: s').
Proof.
  intros c s s' N H. destruct (oper_char c) eqn:O.
  - rewrite !tokens_oper by exact O. rewrite H; reflexivity.
  - rewrite !tokens_other by assumption. exact H.
Qed.
Lemma tokens_collapse : forall s on, tokens (collapse on s) = tokens s /\ (on = false -> begins in_name (collapse on s) = begins in_name s).
Proof.
  induction s as [|c s IH]; intro on; [split; reflexivity|]. cbn [collapse].
  destruct (blank c) eqn:B.
  - destruct (blank_sep c B) as [O N]. rewrite (tokens_other s c O N). destruct on.
    + split; [apply IH|discriminate].
    + split.
      * rewrite tokens_other by reflexivity. apply IH.
      * intros _. rewrite (begins_name_sep c s N). reflexivity.
  - destruct (Ascii.eqb c "!"%char) eqn:E.
    + apply Ascii.eqb_eq in E; subst c. split; [apply tokens_cons_sep; [reflexivity|apply IH]|reflexivity].
    + split; [apply tokens_cons; [apply IH|apply IH; reflexivity]|reflexivity].
Qed.
Lemma tokens_app_space : forall s, tokens (s ++ [" "%char])%list = tokens s.
Proof.
  induction s as [|c s IH]; [reflexivity|]. cbn [app]. apply tokens_cons; [exact IH|]. destruct s; reflexivity.
Qed.
Lemma tokens_trim : forall r, tokens (rev (trim_rev r)) = tokens (rev r).
Proof.
  induction r as [|c r IH]; [reflexivity|]. cbn [trim_rev]. destruct (Ascii.eqb c " "%char) eqn:E; [|reflexivity].
  apply Ascii.eqb_eq in E; subst c. rewrite IH. cbn [rev]. rewrite tokens_app_space. reflexivity.
Qed.
Lemma field_tokens : forall s, tokens (field_of s) = tokens s.
Proof.
  intro s; unfold field_of, trimmed. rewrite tokens_trim, rev_involutive. apply tokens_collapse.
Qed.

Lemma collapse_app : forall a b on, collapse on (a ++ b)%list = (collapse on a ++ collapse (on_after on a) b)%list.
Proof.
  induction a as [|c a IH]; intros b on; [reflexivity|]. cbn [app collapse on_after].
  destruct (blank c); [destruct on|destruct (Ascii.eqb c "!"%char)]; cbn [app]; rewrite ?IH; reflexivity.
Qed.
Lemma collapse_blanks : forall a on, forallb blank a = true -> collapse true a = [] /\ (collapse on a = [] \/ collapse on a = [c_space]) /\ (on = true -> on_after on a = true).
Proof.
  induction a as [|c a IH]; intros on H; [repeat split; auto|]. cbn [forallb] in H; apply andb_true_iff in H; destruct H as [B H].
  cbn [collapse on_after]. rewrite B. destruct (IH true H) as (E & _ & O). rewrite E. repeat split; auto.
  destruct on; auto.
Qed.
Lemma collapse_same : forall g on, existsb (fun c => blank c || Ascii.eqb c "!"%char) g = false -> collapse on g = g.
Proof.
  induction g as [|c g IH]; intros on H; [reflexivity|]. cbn [existsb] in H; apply orb_false_iff in H; destruct H as [H1 H2].
  apply orb_false_iff in H1; destruct H1 as [B E]. cbn [collapse]. rewrite B, E, IH by exact H2. reflexivity.
Qed.
Lemma trim_space : forall r, trim_rev (c_space :: r) = trim_rev r.
Proof. reflexivity. Qed.
Lemma field_prefixed : forall a p g b, forallb blank (a ++ b)%list = true -> blank p = false -> p <> "!"%char ->
  existsb (fun c => blank c || Ascii.eqb c "!"%char) g = false -> field_of (a ++ p :: g ++ b)%list = p :: g.
Proof.
  intros a p g b H Bp Np Hg. rewrite forallb_app in H; apply andb_true_iff in H; destruct H as [Ha Hb].
  unfold field_of. rewrite collapse_app. destruct (collapse_blanks a true Ha) as (Ea & _ & Oa). rewrite Ea, Oa by reflexivity. cbn [app collapse].
  rewrite Bp. replace (Ascii.eqb p "!"%char) with false by (symmetry; apply Ascii.eqb_neq; exact Np).
  rewrite collapse_app, (collapse_same g) by exact Hg.
  destruct (collapse_blanks b (on_after false g) Hb) as (_ & [E | E] & _); rewrite E; unfold trimmed.
  - rewrite app_nil_r. cbn [rev].
    assert (T : forall c l, Ascii.eqb c " "%char = false -> trim_rev (c :: l) = c :: l) by (intros c l N; cbn [trim_rev]; rewrite N; reflexivity).
    destruct (rev g ++ [p])%list as [|c l] eqn:R; [destruct (rev g); discriminate|].
    assert (Hc : blank c = false).
    { destruct (rev g) as [|x y] eqn:G; cbn [app] in R; inversion R; subst; [exact Bp|].
      assert (I : In c g) by (apply in_rev; rewrite G; left; reflexivity).
      destruct (blank c) eqn:Bc; [|reflexivity]. assert (existsb (fun c => blank c || Ascii.eqb c "!"%char) g = true).
      { apply existsb_exists. exists c; split; [exact I|rewrite Bc; reflexivity]. } congruence. }
    rewrite T by (unfold blank in Hc; apply orb_false_iff in Hc; destruct Hc as [Hc _]; exact Hc).
    rewrite <- R, rev_app_distr, rev_involutive. reflexivity.
  - cbn [rev app]. rewrite rev_app_distr. cbn [rev app]. rewrite trim_space.
    assert (T : forall c l, Ascii.eqb c " "%char = false -> trim_rev (c :: l) = c :: l) by (intros c l N; cbn [trim_rev]; rewrite N; reflexivity).
    destruct (rev g ++ [p])%list as [|c l] eqn:R; [destruct (rev g); discriminate|].
    assert (Hc : blank c = false).
    { destruct (rev g) as [|x y] eqn:G; cbn [app] in R; inversion R; subst; [exact Bp|].
      assert (I : In c g) by (apply in_rev; rewrite G; left; reflexivity).
      destruct (blank c) eqn:Bc; [|reflexivity]. assert (existsb (fun c => blank c || Ascii.eqb c "!"%char) g = true).
      { apply existsb_exists. exists c; split; [exact I|rewrite Bc; reflexivity]. } congruence. }
    rewrite T by (unfold blank in Hc; apply orb_false_iff in Hc; destruct Hc as [Hc _]; exact Hc).
    rewrite <- R, rev_app_distr, rev_involutive. reflexivity.
Qed.
(** The first character of the field is the first that is not blank. *)
Lemma field_first : forall s, match field_of s with
  | [] => forallb blank s = true
  | c :: _ => exists a b, s = (a ++ c :: b)%list /\ forallb blank a = true /\ blank c = false end.
Proof.
  intro s.
  assert (L : (exists a c b, s = (a ++ c :: b)%list /\ forallb blank a = true /\ blank c = false) \/ forallb blank s = true).
  { induction s as [|c s IH]; [right; reflexivity|]. cbn [forallb]. destruct (blank c) eqn:B.
    - destruct IH as [(a & d & b & -> & Ha & Hd)|H]; [left; exists (c :: a), d, b; cbn [forallb app]; rewrite B; auto|right; exact H].
    - left; exists [], c, s; auto. }
  destruct L as [(a & c & b & -> & Ha & Hc)|H].
  - unfold field_of. rewrite collapse_app. destruct (collapse_blanks a true Ha) as (Ea & _ & Oa). rewrite Ea, Oa by reflexivity. cbn [app collapse].
    rewrite Hc.
    assert (T : forall q, exists u, rev (trim_rev (q ++ [c])%list) = c :: u).
    { induction q as [|x q IH]; cbn [app trim_rev].
      - unfold blank in Hc; apply orb_false_iff in Hc; destruct Hc as [Hc _]. change " "%char with c_space. rewrite Hc. cbn. eauto.
      - destruct (Ascii.eqb x " "%char); [exact IH|]. cbn [rev]. rewrite rev_app_distr. cbn. eauto. }
    unfold trimmed. destruct (Ascii.eqb c "!"%char) eqn:E; [apply Ascii.eqb_eq in E; subst c|]; cbn [rev].
    + destruct (T (rev (collapse true b))) as [u ->]. exists a, b; auto.
    + destruct (T (rev (collapse false b))) as [u ->]. exists a, b; auto.
  - unfold field_of. destruct (collapse_blanks s true H) as (E & _). rewrite E. exact H.
Qed.

(** ** The stream *)
Definition reads (opens : option file) (rd : reader) (st : state) (s : list ascii) : Prop :=
  match rd with
  | ROpen keep fd => (length keep <= BUFLEN)%nat /\
      match fd with Some f => bad f = false /\ s = (keep ++ data f)%list | None => s = keep end
  | RStart => opens = Some (mkFile s false) /\ st = SNl
  | RGone => False
  end.

Lemma fill_stream : forall keep fd s, (length keep <= BUFLEN)%nat ->
  match fd with Some f => bad f = false /\ s = (keep ++ data f)%list | None => s = keep end ->
  exists fd', fill keep fd = Some (firstn BUFLEN s, fd') /\
    match fd' with Some f => bad f = false /\ data f = skipn BUFLEN s | None => skipn BUFLEN s = [] end.
Proof.
  intros keep [f|] s Hk Hs; unfold fill.
  - destruct Hs as [Hb ->]. rewrite firstn_app, skipn_app, (firstn_all2 keep), (skipn_all2 keep) by exact Hk. cbn [app].
    destruct (BUFLEN - length keep =? 0)%nat eqn:Z.
    + apply Nat.eqb_eq in Z. rewrite Z. cbn [firstn skipn]. rewrite app_nil_r. exists (Some f); split; [reflexivity|]. split; [exact Hb|reflexivity].
    + destruct (BUFLEN - length keep <=? length (data f))%nat eqn:L.
      * eexists; split; [reflexivity|]. cbn [bad data]. auto.
      * apply Nat.leb_gt in L. rewrite Hb. rewrite (firstn_all2 (data f)), (skipn_all2 (data f)) by lia. eexists; split; [reflexivity|]. reflexivity.
  - subst s. rewrite firstn_all2, skipn_all2 by exact Hk. eexists; split; [reflexivity|reflexivity].
Qed.

Lemma before_nul_id : forall l, ~ In NUL l -> before_nul l = l.
Proof.
  induction l as [|c l IH]; intro H; [reflexivity|]. cbn [before_nul].
  replace (Ascii.eqb c NUL) with false by (symmetry; apply Ascii.eqb_neq; intros ->; apply H; left; reflexivity).
  rewrite IH; [reflexivity|]. intro I; apply H; right; exact I.
Qed.
Lemma scan_rest : forall n src st on acc, (length src <= n)%nat -> let '(found, _, _, rest) := scan st on acc src in
  (exists p, src = (p ++ rest)%list) \/ rest = [].
Proof.
  induction n as [|n IH]; intros src st on acc L.
  { destruct src; [cbn; auto|cbn [length] in L; lia]. }
  destruct src as [|c r]; [cbn; auto|]. cbn [length] in L.
  assert (K : forall st' on' acc' q x, (length q <= n)%nat -> c :: r = (x ++ q)%list -> let '(found, _, _, rest) := scan st' on' acc' q in
     (exists p, c :: r = (p ++ rest)%list) \/ rest = []).
  { intros st' on' acc' q x Lq E. specialize (IH q st' on' acc' Lq). destruct (scan st' on' acc' q) as [[[fo s'] ac] rest].
    destruct IH as [[p ->]|]; [left; exists (x ++ p)%list; rewrite E, <- app_assoc; reflexivity|right; assumption]. }
  cbn [scan].
  destruct (Ascii.eqb c NUL); [auto|].
  destruct (match st with SComment => _ | _ => _ end); [apply (K _ _ _ r [c]); [lia|reflexivity]|].
  destruct (Ascii.eqb c c_nl); [left; exists [c]; reflexivity|].
  destruct (Ascii.eqb c c_tab || Ascii.eqb c c_space).
  { destruct on; apply (K _ _ _ r [c]); (lia || reflexivity). }
  destruct (Ascii.eqb c "!"%char); [apply (K _ _ _ r [c]); [lia|reflexivity]|].
  destruct (Ascii.eqb c c_hash); [apply (K _ _ _ r [c]); [lia|reflexivity]|].
  destruct (Ascii.eqb c ";"%char); [left; exists [c]; reflexivity|].
  destruct r as [|d r].
  - apply (K _ _ _ [] [c]); [cbn; lia|reflexivity].
  - cbn [length] in L. destruct (Ascii.eqb c c_bslash && Ascii.eqb d c_nl).
    + apply (K _ _ _ r [c; d]); [lia|reflexivity].
    + apply (K _ _ _ (d :: r) [c]); [cbn [length]; lia|reflexivity].
Qed.

(** One call of read_field, on the stream. *)
Lemma read_step : forall opens rd st s, reads opens rd st s -> ~ In NUL s -> s <> [] ->
  let '(found, st', acc, rest) := scan st true [] (firstn BUFLEN s) in
  exists rd', read_field opens rd st = (rd', (if (found : bool) then st' else SComment), Some (if found then trimmed acc else match st' with SComment => trimmed acc | _ => [] end)) /\
    forall st'', reads opens rd' st'' (if found then rest ++ skipn BUFLEN s else skipn BUFLEN s)%list.
Proof.
  intros opens rd st s Hr Hn Hs.
  assert (Hf : firstn BUFLEN s <> []).
  { destruct s; [congruence|]. change BUFLEN with (S 999). cbn [firstn]. discriminate. }
  assert (Hn1 : ~ In NUL (firstn BUFLEN s)).
  { intro I; apply Hn. rewrite <- (firstn_skipn BUFLEN s). apply in_app_iff; left; exact I. }
  assert (G : forall keep fd st0, (length keep <= BUFLEN)%nat -> match fd with Some f => bad f = false /\ s = (keep ++ data f)%list | None => s = keep end ->
    let '(found, st', acc, rest) := scan st0 true [] (firstn BUFLEN s) in
    exists rd', match fill keep fd with
      | None => (RGone, SEof, None)
      | Some ([], _) => (RGone, SEof, None)
      | Some (buf, fd) =>
        let '(found, st, acc, rest) := scan st0 true [] buf in
        if (found : bool) then (ROpen (before_nul rest) fd, st, Some (trimmed acc))
        else match st with
             | SComment => (ROpen [] fd, SComment, Some (trimmed acc))
             | _ => (ROpen [] fd, SComment, Some [])
             end
      end = (rd', (if (found : bool) then st' else SComment), Some (if found then trimmed acc else match st' with SComment => trimmed acc | _ => [] end)) /\
      forall st'', reads opens rd' st'' (if found then rest ++ skipn BUFLEN s else skipn BUFLEN s)%list).
  { intros keep fd st0 Hk Hfd. destruct (fill_stream keep fd s Hk Hfd) as (fd' & E & Hfd'). rewrite E.
    destruct (firstn BUFLEN s) as [|c0 b0] eqn:Eb; [congruence|]. rewrite <- Eb in *.
    pose proof (scan_rest (length (firstn BUFLEN s)) (firstn BUFLEN s) st0 true [] (le_n _)) as R.
    destruct (scan st0 true [] (firstn BUFLEN s)) as [[[found st'] acc] rest].
    assert (Hrest : ~ In NUL rest /\ (length rest <= BUFLEN)%nat).
    { pose proof (firstn_le_length BUFLEN s) as LL. destruct R as [[p R]| ->]; [|split; [intros []|cbn [length]; unfold BUFLEN; lia]].
      split; [intro I; apply Hn1; rewrite R; apply in_app_iff; right; exact I|].
      apply (f_equal (@length ascii)) in R. rewrite app_length, firstn_length in R. lia. }
    destruct Hrest as [Hn2 Hl].
    assert (K : forall keep', (length keep' <= BUFLEN)%nat -> forall st'', reads opens (ROpen keep' fd') st'' (keep' ++ skipn BUFLEN s)%list).
    { intros keep' Hk' st''. cbn [reads]. split; [exact Hk'|]. destruct fd' as [f|]; [destruct Hfd' as [? Hd]; rewrite Hd; auto|].
      rewrite Hfd', app_nil_r. reflexivity. }
    destruct found.
    - eexists; split; [reflexivity|]. rewrite before_nul_id by exact Hn2. apply K; exact Hl.
    - destruct st'; (eexists; split; [reflexivity|]; apply (K []); cbn [length]; unfold BUFLEN; lia). }
  unfold read_field. destruct rd as [|keep fd|]; cbn [reads] in Hr; [|destruct Hr as [Hk Hfd]; apply (G keep fd st Hk Hfd)|contradiction].
  destruct Hr as [-> ->]. apply (G [] (Some (mkFile s false)) SNl); [cbn [length]; unfold BUFLEN; lia|]. cbn [bad data app]. auto.
Qed.
Lemma read_end : forall opens rd st, reads opens rd st [] -> exists rd', read_field opens rd st = (rd', SEof, None).
Proof.
  intros opens rd st H. unfold read_field. destruct rd as [|keep fd|]; cbn [reads] in H; [| |contradiction].
  - destruct H as [-> ->]. cbn. eauto.
  - destruct H as [Hk Hfd]. destruct (fill_stream keep fd [] Hk Hfd) as (fd' & E & _). rewrite E, firstn_nil. eauto.
Qed.

(** Scanning the parts of a line. *)
Lemma plain_facts : forall c, plain c = true -> Ascii.eqb c NUL = false /\ Ascii.eqb c c_nl = false /\ Ascii.eqb c c_bslash = false /\ Ascii.eqb c c_hash = false /\ Ascii.eqb c ";"%char = false.
Proof.
  intros c H; unfold plain in H; apply negb_true_iff in H; cbn [existsb] in H; rewrite !orb_false_iff in H; tauto.
Qed.
Lemma scan_raw : forall r st on acc rest, forallb plain (chars r) = true -> st <> SComment ->
  scan st on acc (raw_text r ++ rest)%list = scan st (on_after on (chars r)) (rev (collapse on (chars r)) ++ acc)%list rest.
Proof.
  induction r as [|p r IH]; intros st on acc rest H Hst; [reflexivity|].
  assert (Hm : forall c, match st with SComment => c | _ => false end = false) by (intro c; destruct st; [reflexivity|congruence|reflexivity|reflexivity]).
  destruct p as [c|].
  - cbn [chars flat_map app forallb] in H. apply andb_true_iff in H; destruct H as [Hc H]. fold (chars r) in H.
    cbn [raw_text flat_map piece_text app chars]. fold (raw_text r) (chars r). cbn [scan on_after collapse].
    destruct (plain_facts c Hc) as (P1 & P2 & P3 & P4 & P5). rewrite P1, P2, P3, P4, P5, Hm.
    unfold blank. rewrite (orb_comm (Ascii.eqb c c_space)). destruct (Ascii.eqb c c_tab || Ascii.eqb c c_space).
    + destruct on; rewrite IH by assumption; [reflexivity|]. cbn [rev]. rewrite <- app_assoc. reflexivity.
    + destruct (Ascii.eqb c "!"%char).
      * rewrite IH by assumption. cbn [rev]. rewrite <- app_assoc. reflexivity.
      * cbn [andb]. destruct (raw_text r ++ rest)%list eqn:E; rewrite <- E; rewrite IH by assumption; cbn [rev]; rewrite <- app_assoc; reflexivity.
  - cbn [raw_text flat_map piece_text app chars]. fold (raw_text r) (chars r). cbn [scan]. rewrite Hm.
    change (Ascii.eqb c_bslash NUL) with false. change (Ascii.eqb c_bslash c_nl) with false. change (Ascii.eqb c_bslash c_tab || Ascii.eqb c_bslash c_space) with false.
    change (Ascii.eqb c_bslash "!") with false. change (Ascii.eqb c_bslash c_hash) with false. change (Ascii.eqb c_bslash ";") with false.
    change (Ascii.eqb c_bslash c_bslash && Ascii.eqb c_nl c_nl) with true. cbv iota. apply IH; assumption.
Qed.
Lemma scan_comment : forall t on acc rest, ~ In NUL t -> ~ In c_nl t -> scan SComment on acc (t ++ rest)%list = scan SComment on acc rest.
Proof.
  induction t as [|c t IH]; intros on acc rest H H'; [reflexivity|]. cbn [app scan].
  replace (Ascii.eqb c NUL) with false by (symmetry; apply Ascii.eqb_neq; intros ->; apply H; left; reflexivity).
  replace (Ascii.eqb c c_nl) with false by (symmetry; apply Ascii.eqb_neq; intros ->; apply H'; left; reflexivity).
  cbn [negb]. apply IH; intro I; [apply H|apply H']; right; exact I.
Qed.

Lemma firstn_fits : forall (a b : list ascii) n, (length a <= n)%nat -> firstn n (a ++ b)%list = (a ++ firstn (n - length a) b)%list.
Proof. intros a b n H. rewrite firstn_app, firstn_all2 by exact H. reflexivity. Qed.
Lemma skipn_fits : forall (a b : list ascii) n, (length a <= n)%nat -> skipn n (a ++ b)%list = skipn (n - length a) b.
Proof. intros a b n H. rewrite skipn_app, skipn_all2 by exact H. reflexivity. Qed.

(** A field with a semicolon. *)
Lemma read_mid : forall opens rd st r tail, reads opens rd st (raw_text r ++ ";"%char :: tail)%list -> ~ In NUL (raw_text r ++ ";"%char :: tail)%list ->
  st <> SComment -> raw_ok r ->
  exists rd', read_field opens rd st = (rd', SField, Some (field_of (chars r))) /\ forall st', reads opens rd' st' tail.
Proof.
  intros opens rd st r tail Hr Hn Hst [Hp Hl].
  assert (Ne : (raw_text r ++ ";"%char :: tail)%list <> []) by (destruct (raw_text r); discriminate).
  pose proof (read_step opens rd st _ Hr Hn Ne) as R.
  rewrite firstn_fits in R by (unfold BUFLEN; lia). rewrite scan_raw in R by assumption.
  assert (Hk : exists k, BUFLEN - length (raw_text r) = S k) by (exists (BUFLEN - length (raw_text r) - 1); unfold BUFLEN; lia).
  destruct Hk as [k Hk]. rewrite Hk in R. cbn [firstn] in R. cbn [scan] in R.
  assert (Hm : match st with SComment => negb (Ascii.eqb ";" c_nl) | _ => false end = false) by (destruct st; [reflexivity|congruence|reflexivity|reflexivity]).
  rewrite Hm in R.
  change (Ascii.eqb ";" NUL) with false in R. change (Ascii.eqb ";" c_nl) with false in R. change (Ascii.eqb ";" c_tab || Ascii.eqb ";" c_space) with false in R.
  change (Ascii.eqb ";" "!") with false in R. change (Ascii.eqb ";" c_hash) with false in R. change (Ascii.eqb ";" ";") with true in R. cbv iota in R.
  destruct R as (rd' & E & Hrd). exists rd'. split.
  - rewrite E. rewrite app_nil_r. reflexivity.
  - intro st'. specialize (Hrd st'). rewrite skipn_fits in Hrd by (unfold BUFLEN; lia). rewrite Hk in Hrd. cbn [skipn] in Hrd. rewrite firstn_skipn in Hrd. exact Hrd.
Qed.

(** The last field: the state is then that of a new line, or the rest of the comment is still to come. *)
Lemma read_last : forall opens rd st r c tail, reads opens rd st (raw_text r ++ end_text c ++ tail)%list -> ~ In NUL (raw_text r ++ end_text c ++ tail)%list ->
  st <> SComment -> raw_ok r -> comment_ok c ->
  exists rd' st', read_field opens rd st = (rd', st', Some (field_of (chars r))) /\
    (st' = SNl /\ (forall q, reads opens rd' q tail) \/
     st' = SComment /\ exists t, ~ In NUL t /\ ~ In c_nl t /\ (S (length t) < length (raw_text r ++ end_text c))%nat /\ forall q, reads opens rd' q (t ++ c_nl :: tail)%list).
Proof.
  intros opens rd st r c tail Hr Hn Hst [Hp Hl] Hc.
  assert (Ne : (raw_text r ++ end_text c ++ tail)%list <> []) by (destruct (raw_text r); [destruct c|]; discriminate).
  pose proof (read_step opens rd st _ Hr Hn Ne) as R.
  rewrite firstn_fits in R by (unfold BUFLEN; lia). rewrite scan_raw in R by assumption. rewrite skipn_fits in R by (unfold BUFLEN; lia). rewrite app_nil_r in R.
  assert (Hk : exists k, BUFLEN - length (raw_text r) = S k) by (exists (BUFLEN - length (raw_text r) - 1); unfold BUFLEN; lia).
  destruct Hk as [k Hk]. rewrite Hk in R.
  assert (Hm : forall x, match st with SComment => x | _ => false end = false) by (intro x; destruct st; [reflexivity|congruence|reflexivity|reflexivity]).
  destruct c as [t|]; cbn [end_text app firstn skipn] in R; cbn [scan] in R; rewrite Hm in R.
  - change (Ascii.eqb c_hash NUL) with false in R. change (Ascii.eqb c_hash c_nl) with false in R. change (Ascii.eqb c_hash c_tab || Ascii.eqb c_hash c_space) with false in R.
    change (Ascii.eqb c_hash "!") with false in R. change (Ascii.eqb c_hash c_hash) with true in R. cbv iota in R.
    destruct Hc as [Hc1 Hc2]. rewrite <- app_assoc in R. cbn [app] in R.
    destruct (le_lt_dec (S (length t)) k) as [L|L].
    + rewrite firstn_fits in R by lia. rewrite scan_comment in R by assumption. rewrite skipn_fits in R by lia.
      assert (Hj : exists j, k - length t = S j) by (exists (k - length t - 1); lia). destruct Hj as [j Hj]. rewrite Hj in R. cbn [firstn skipn scan] in R.
      change (Ascii.eqb c_nl NUL) with false in R. change (Ascii.eqb c_nl c_nl) with true in R. cbn [negb] in R. cbv iota in R.
      destruct R as (rd' & E & Hrd). exists rd', SNl. split; [exact E|]. left. split; [reflexivity|]. intro q. specialize (Hrd q). rewrite firstn_skipn in Hrd. exact Hrd.
    + rewrite (firstn_app k t), (skipn_app k t) in R. replace (k - length t) with 0 in R by lia. cbn [firstn skipn] in R. rewrite app_nil_r in R.
      rewrite <- (app_nil_r (firstn k t)) in R.
      rewrite scan_comment in R.
      * cbn [scan] in R. destruct R as (rd' & E & Hrd). exists rd', SComment. split; [exact E|]. right. split; [reflexivity|].
        exists (skipn k t).
        assert (Sub : forall x, In x (skipn k t) -> In x t) by (intros x I; rewrite <- (firstn_skipn k t); apply in_app_iff; right; exact I).
        repeat split.
        -- intro I; apply Hc1, Sub, I.
        -- intro I; apply Hc2, Sub, I.
        -- rewrite skipn_length, app_length. cbn [end_text length]. rewrite app_length. cbn [length]. lia.
        -- exact Hrd.
      * intro I; apply Hc1. rewrite <- (firstn_skipn k t). apply in_app_iff; left; exact I.
      * intro I; apply Hc2. rewrite <- (firstn_skipn k t). apply in_app_iff; left; exact I.
  - change (Ascii.eqb c_nl NUL) with false in R. change (Ascii.eqb c_nl c_nl) with true in R. cbv iota in R.
    destruct R as (rd' & E & Hrd). exists rd', SNl. split; [exact E|]. left. split; [reflexivity|]. intro q. specialize (Hrd q). rewrite firstn_skipn in Hrd. exact Hrd.
Qed.

(** The rest of a comment. *)
Lemma read_comment : forall opens rd t tail, reads opens rd SComment (t ++ c_nl :: tail)%list -> ~ In NUL (t ++ c_nl :: tail)%list -> ~ In c_nl t ->
  exists rd' st', read_field opens rd SComment = (rd', st', Some []) /\
    (st' = SNl /\ (forall q, reads opens rd' q tail) \/
     st' = SComment /\ exists t', ~ In NUL t' /\ ~ In c_nl t' /\ (length t' < length t)%nat /\ forall q, reads opens rd' q (t' ++ c_nl :: tail)%list).
Proof.
  intros opens rd t tail Hr Hn Hc.
  assert (Ht : ~ In NUL t) by (intro I; apply Hn, in_app_iff; left; exact I).
  assert (Ne : (t ++ c_nl :: tail)%list <> []) by (destruct t; discriminate).
  pose proof (read_step opens rd SComment _ Hr Hn Ne) as R.
  destruct (le_lt_dec (S (length t)) BUFLEN) as [L|L].
  - rewrite firstn_fits in R by lia. rewrite scan_comment in R by assumption. rewrite skipn_fits in R by lia.
    assert (Hj : exists j, BUFLEN - length t = S j) by (exists (BUFLEN - length t - 1); lia). destruct Hj as [j Hj]. rewrite Hj in R. cbn [firstn skipn scan] in R.
    change (Ascii.eqb c_nl NUL) with false in R. change (Ascii.eqb c_nl c_nl) with true in R. cbn [negb] in R. cbv iota in R.
    destruct R as (rd' & E & Hrd). exists rd', SNl. split; [exact E|]. left. split; [reflexivity|]. intro q. specialize (Hrd q). rewrite firstn_skipn in Hrd. exact Hrd.
  - rewrite (firstn_app BUFLEN t), (skipn_app BUFLEN t) in R. replace (BUFLEN - length t) with 0 in R by lia. cbn [firstn skipn] in R. rewrite app_nil_r in R.
    rewrite <- (app_nil_r (firstn BUFLEN t)) in R.
    rewrite scan_comment in R.
    + cbn [scan] in R. destruct R as (rd' & E & Hrd). exists rd', SComment. split; [exact E|]. right. split; [reflexivity|].
      exists (skipn BUFLEN t).
      assert (Sub : forall x, In x (skipn BUFLEN t) -> In x t) by (intros x I; rewrite <- (firstn_skipn BUFLEN t); apply in_app_iff; right; exact I).
      repeat split.
      * intro I; apply Ht, Sub, I.
      * intro I; apply Hc, Sub, I.
      * rewrite skipn_length. unfold BUFLEN in *; lia.
      * exact Hrd.
    + intro I; apply Ht. rewrite <- (firstn_skipn BUFLEN t). apply in_app_iff; left; exact I.
    + intro I; apply Hc. rewrite <- (firstn_skipn BUFLEN t). apply in_app_iff; left; exact I.
Qed.

(** ** Fields and rules *)
Lemma comparable_names : forall a l, name_ok a l -> ~ In "*"%char a -> agree_on (is_same a) (fits a) (logic_tokens l).
Proof.
  intros a l Hn Ha n r Hi Hc Hr. apply is_same_fits; [apply name_not_nul; exact Hc|exact Ha|].
  unfold name_ok in Hn. rewrite Forall_forall in Hn. apply Hn, logic_names_tokens, Hi.
Qed.
Lemma field_names : forall a r l, says r l -> name_ok a l -> ~ In "*"%char a -> logic_field (is_same a) (field_of (chars r)) = Ok (logic_value (fits a) l).
Proof.
  intros a r l Hs Hn Ha. rewrite (logic_field_ev (is_same a) (fits a)); rewrite field_tokens; rewrite Hs; [rewrite ev_value; reflexivity|].
  apply comparable_names; assumption.
Qed.
Lemma field_times : forall d hm r l, says r l -> (d < 7)%nat -> Forall (fun n => parse_range n <> None) (logic_names l) ->
  logic_field (fun t k => Ok (check_time (mkWhen (N.shiftl 1 (N.of_nat d)) hm) t k)) (field_of (chars r)) = Ok (logic_value (in_time d hm) l).
Proof.
  intros d hm r l Hs Hd Hp. rewrite (logic_field_ev _ (in_time d hm)); rewrite field_tokens; rewrite Hs; [rewrite ev_value; reflexivity|].
  intros n q Hi Hc Hq. rewrite Forall_forall in Hp. specialize (Hp n (logic_names_tokens l n Hi)).
  unfold in_time. destruct (parse_range n) as [rg|] eqn:E; [|congruence]. rewrite (check_time_range d hm n rg q Hd E Hq). reflexivity.
Qed.

Definition who_of (q : asker) : who := mkWho (a_service q) (a_tty q) (a_user q) (a_net q).
Definition now_of (q : asker) : when := mkWhen (N.shiftl 1 (N.of_nat (a_day q))) (a_hm q).

Lemma first_not : forall r l, users_say r (UList l) -> match field_of (chars r) with c :: _ => c <> "@"%char /\ c <> "%"%char | [] => True end.
Proof.
  intros r l [_ H]. pose proof (field_first (chars r)) as F. destruct (field_of (chars r)) as [|c f]; [exact I|].
  destruct F as (a & b & E & Ha & Hc). exact (H a c b E Ha Hc).
Qed.
Lemma field_group_users : forall q r u, users_say r u -> users_ok q u -> ~ In "*"%char (a_user q) ->
  group_user_field (who_of q) (a_grp q) (field_of (chars r)) = Ok (users_match q u).
Proof.
  intros q r [l|g|g] Hs Hu Ha.
  - pose proof (first_not r l Hs) as F. destruct Hs as [Hs _]. cbn [users_match users_ok] in *. rewrite <- (field_names (a_user q) r l Hs Hu Ha).
    unfold group_user_field. destruct (field_of (chars r)) as [|c f]; [reflexivity|]. destruct F as [F1 F2].
    apply Ascii.eqb_neq in F1, F2. rewrite F1, F2. reflexivity.
  - destruct Hs as (a & b & E & Hb & Hg). rewrite E, field_prefixed by (assumption || reflexivity || discriminate). reflexivity.
  - destruct Hs as (a & b & E & Hb & Hg). rewrite E, field_prefixed by (assumption || reflexivity || discriminate). reflexivity.
Qed.
Lemma field_users : forall q r u, users_say r u -> users_ok q u -> ~ In "*"%char (a_user q) -> (forall g, u <> UGroup g) ->
  user_field (who_of q) (field_of (chars r)) = Ok (users_match q u).
Proof.
  intros q r [l|g|g] Hs Hu Ha Hg'; [| |destruct (Hg' g eq_refl)].
  - pose proof (first_not r l Hs) as F. destruct Hs as [Hs _]. cbn [users_match users_ok] in *. rewrite <- (field_names (a_user q) r l Hs Hu Ha).
    unfold user_field. destruct (field_of (chars r)) as [|c f]; [reflexivity|]. destruct F as [F1 F2].
    apply Ascii.eqb_neq in F1. rewrite F1. reflexivity.
  - destruct Hs as (a & b & E & Hb & Hg). rewrite E, field_prefixed by (assumption || reflexivity || discriminate). reflexivity.
Qed.

Lemma file_cons : forall l ls, file_text (l :: ls) = (line_text l ++ file_text ls)%list.
Proof. reflexivity. Qed.
Lemma raw_no_nul : forall r, raw_ok r -> ~ In NUL (raw_text r).
Proof.
  intros r [Hp _] I. unfold raw_text in I. apply in_flat_map in I. destruct I as (p & Hi & I). destruct p as [c|]; cbn [piece_text] in I.
  - destruct I as [-> |[]]. rewrite forallb_forall in Hp. specialize (Hp NUL). discriminate Hp. unfold chars. apply in_flat_map. exists (Ch NUL); cbn; auto.
  - destruct I as [I|[I|[]]]; discriminate.
Qed.
Lemma end_no_nul : forall c, comment_ok c -> ~ In NUL (end_text c).
Proof.
  intros [t|] H; cbn [end_text comment_ok] in *.
  - destruct H as [H _]. intros [I|I]; [discriminate|]. apply in_app_iff in I. destruct I as [I|[I|[]]]; [apply H, I|discriminate].
  - intros [I|[]]; discriminate.
Qed.
Lemma line_no_nul : forall n l, line_ok n l -> ~ In NUL (line_text l).
Proof.
  intros n [b c|fs f c] H; cbn [line_ok line_text] in *.
  - destruct H as (H1 & _ & H2). intro I; apply in_app_iff in I; destruct I as [I|I]; [apply (raw_no_nul b H1 I)|apply (end_no_nul c H2 I)].
  - destruct H as (_ & H1 & H2 & H3 & _). intro I. rewrite !in_app_iff in I. destruct I as [I|[I|I]]; [|apply (raw_no_nul f H2 I)|apply (end_no_nul c H3 I)].
    apply in_flat_map in I. destruct I as (g & Hg & I). rewrite Forall_forall in H1. apply in_app_iff in I. destruct I as [I|[I|[]]]; [apply (raw_no_nul g (H1 g Hg) I)|discriminate].
Qed.
Lemma file_no_nul : forall n ls, Forall (line_ok n) ls -> ~ In NUL (file_text ls).
Proof.
  induction ls as [|l ls IH]; intros H I; [destruct I|]. inversion H; subst. rewrite file_cons in I. apply in_app_iff in I. destruct I as [I|I].
  - apply (line_no_nul n l H2 I).
  - apply (IH H3 I).
Qed.
Lemma no_nul_app : forall a b : list ascii, ~ In NUL a -> ~ In NUL b -> ~ In NUL (a ++ b)%list.
Proof. intros a b H H' I; apply in_app_iff in I; tauto. Qed.
Lemma no_nul_cons : forall c (b : list ascii), c <> NUL -> ~ In NUL b -> ~ In NUL (c :: b).
Proof. intros c b H H' [I|I]; [congruence|tauto]. Qed.
Lemma field_nonempty : forall r, existsb (fun x => negb (blank x)) (chars r) = true -> exists c f, field_of (chars r) = c :: f.
Proof.
  intros r H. pose proof (field_first (chars r)) as F. destruct (field_of (chars r)) as [|c f]; [|eauto].
  apply existsb_exists in H. destruct H as (x & Hx & Hb). rewrite forallb_forall in F. rewrite (F x Hx) in Hb; discriminate.
Qed.
Lemma field_empty : forall r, forallb blank (chars r) = true -> field_of (chars r) = [].
Proof. intros r H. unfold field_of. destruct (collapse_blanks (chars r) true H) as (E & _). rewrite E. reflexivity. Qed.

(** ** pam_time on a file *)
Section TimeFile.
Variable q : asker.
Hypothesis Hq : asker_ok q.
Variable opens : option file.
Let run := time_rules (who_of q) (now_of q) opens.

Lemma time_rules_comment : forall n t tail fuel rd ret v, (length t < n)%nat -> ~ In NUL (t ++ c_nl :: tail)%list -> ~ In c_nl t ->
  (forall s, reads opens rd s (t ++ c_nl :: tail)%list) -> (length (t ++ c_nl :: tail) < fuel)%nat ->
  (forall rd' fuel', (forall s, reads opens rd' s tail) -> (length tail < fuel')%nat -> run fuel' rd' SNl ret = v) ->
  run fuel rd SComment ret = v.
Proof.
  induction n as [|n IH]; intros t tail fuel rd ret v Hl Hn Hc Hr Hf K; [lia|].
  destruct fuel as [|fuel]; [lia|]. unfold run. cbn [time_rules].
  destruct (read_comment opens rd t tail (Hr SComment) Hn Hc) as (rd' & st' & E & [[-> H]|[-> (t' & H1 & H2 & H3 & H4)]]); rewrite E.
  - apply K; [exact H|]. rewrite app_length in Hf; cbn [length] in Hf; lia.
  - apply (IH t' tail); try assumption; [lia| |].
    + apply no_nul_app; [exact H1|]. intro I; apply Hn, in_app_iff; right; exact I.
    + rewrite app_length in *; cbn [length] in *; lia.
Qed.

Definition denies (m : meaning) : bool := applies q m && negb (times_match q m).

Lemma time_rules_file : forall ls ms, time_file ls ms -> Forall (line_ok 4) ls -> Forall (meaning_ok q) ms ->
  forall fuel rd ret, reads opens rd SNl (file_text ls) -> (length (file_text ls) < fuel)%nat ->
  run fuel rd SNl ret = Ok (if existsb denies ms then PAM_PERM_DENIED else ret).
Proof.
  induction 1 as [|b c ls ms Htf IH|s t u f c m ls ms Hs Ht Hu Hf Hg Htf IH]; intros Hok Hm fuel rd ret Hr Hlen.
  - destruct fuel as [|fuel]; [lia|]. unfold run. cbn [time_rules]. destruct (read_end opens rd SNl Hr) as [rd' ->]. reflexivity.
  - inversion Hok as [|? ? Hl Hls]; subst. destruct fuel as [|fuel]; [lia|]. destruct Hl as (Hb & Hbl & Hc).
    pose proof (file_no_nul 4 ls Hls) as N2. rewrite file_cons in Hr, Hlen. cbn [line_text] in Hr, Hlen. rewrite <- app_assoc in Hr.
    destruct (read_last opens rd SNl b c (file_text ls) Hr) as (rd' & st' & E & Hst); try assumption; try discriminate.
    { apply no_nul_app; [apply raw_no_nul, Hb|apply no_nul_app; [apply end_no_nul, Hc|exact N2]]. }
    unfold run. cbn [time_rules]. rewrite E, (field_empty b Hbl).
    rewrite !app_length in Hlen.
    assert (Le : (1 <= length (end_text c))%nat) by (destruct c; cbn [end_text length]; lia).
    destruct Hst as [[-> H]|[-> (t' & H1 & H2 & H3 & H4)]].
    + apply IH; try assumption; [apply H|lia].
    + rewrite app_length in H3. eapply time_rules_comment; [apply (le_n (S (length t')))| |exact H2|exact H4| |].
      * apply no_nul_app; [exact H1|apply no_nul_cons; [discriminate|exact N2]].
      * rewrite app_length; cbn [length]. lia.
      * intros rd2 fuel2 Hr2 Hf2. apply IH; try assumption. apply Hr2.
  - inversion Hok as [|? ? Hl Hls]; subst. inversion Hm as [|? ? Hmo Hms]; subst. destruct fuel as [|fuel]; [lia|].
    destruct Hl as (_ & Hfs & Hfo & Hc & Hne). inversion Hfs as [|? ? So F1]; subst. inversion F1 as [|? ? To F2]; subst. inversion F2 as [|? ? Uo _]; subst.
    pose proof (file_no_nul 4 ls Hls) as N2. rewrite file_cons in Hr, Hlen. cbn [line_text flat_map] in Hr, Hlen.
    rewrite app_nil_r in Hr, Hlen. repeat rewrite <- app_assoc in Hr. cbn [app] in Hr.
    pose proof (raw_no_nul s So) as Ns. pose proof (raw_no_nul t To) as Nt. pose proof (raw_no_nul u Uo) as Nu. pose proof (raw_no_nul f Hfo) as Nf. pose proof (end_no_nul c Hc) as Nc.
    assert (N3 : ~ In NUL (raw_text f ++ end_text c ++ file_text ls)%list) by (repeat apply no_nul_app; assumption).
    assert (N4 : ~ In NUL (raw_text u ++ ";"%char :: raw_text f ++ end_text c ++ file_text ls)%list) by (apply no_nul_app; [assumption|apply no_nul_cons; [discriminate|assumption]]).
    assert (N5 : ~ In NUL (raw_text t ++ ";"%char :: raw_text u ++ ";"%char :: raw_text f ++ end_text c ++ file_text ls)%list) by (apply no_nul_app; [assumption|apply no_nul_cons; [discriminate|assumption]]).
    assert (N6 : ~ In NUL (raw_text s ++ ";"%char :: raw_text t ++ ";"%char :: raw_text u ++ ";"%char :: raw_text f ++ end_text c ++ file_text ls)%list) by (apply no_nul_app; [assumption|apply no_nul_cons; [discriminate|assumption]]).
    destruct Hq as (Q1 & Q2 & Q3 & Q4). destruct Hmo as (M1 & M2 & M3 & M4).
    destruct (read_mid opens rd SNl s _ Hr N6 ltac:(discriminate) So) as (rd1 & E1 & R1).
    destruct (read_mid opens rd1 SField t _ (R1 SField) N5 ltac:(discriminate) To) as (rd2 & E2 & R2).
    destruct (read_mid opens rd2 SField u _ (R2 SField) N4 ltac:(discriminate) Uo) as (rd3 & E3 & R3).
    destruct (read_last opens rd3 SField f c _ (R3 SField) N3 ltac:(discriminate) Hfo Hc) as (rd4 & st4 & E4 & Hst).
    unfold run. cbn [time_rules]. rewrite E1. destruct (field_nonempty s Hne) as (c1 & f1 & En).
    pose proof (field_names (a_service q) s (m_services m) Hs M1 Q1) as V1. rewrite En in V1 |- *. cbv iota.
    change (w_service (who_of q)) with (a_service q). rewrite V1. cbn [bind]. rewrite E2.
    change (w_tty (who_of q)) with (a_tty q). rewrite (field_names (a_tty q) t (m_ttys m) Ht M2 Q2). cbn [bind]. rewrite E3.
    rewrite (field_users q u (m_users m) Hu M3 Q3 Hg). cbn [bind]. rewrite E4.
    pose proof (field_times (a_day q) (a_hm q) f (m_times m) Hf Q4 M4) as V4. fold (now_of q) (times_match q m) in V4.
    rewrite !app_length in Hlen. cbn [length] in Hlen.
    assert (Le : (1 <= length (end_text c))%nat) by (destruct c; cbn [end_text length]; lia).
    assert (V : forall ret', Ok (if existsb denies ms then PAM_PERM_DENIED else (if denies m then PAM_PERM_DENIED else ret')) = Ok (if existsb denies (m :: ms) then PAM_PERM_DENIED else ret')).
    { intro ret'. cbn [existsb]. destruct (denies m), (existsb denies ms); reflexivity. }
    destruct Hst as [[-> H]|[-> (t' & H1 & H2 & H3 & H4)]]; cbv iota; rewrite V4; cbn [bind]; fold (applies q m); fold (denies m).
    + rewrite <- V. apply IH; try assumption; [apply H|lia].
    + rewrite app_length in H3. eapply time_rules_comment; [apply (le_n (S (length t')))| |exact H2|exact H4| |].
      * apply no_nul_app; [exact H1|apply no_nul_cons; [discriminate|exact N2]].
      * rewrite app_length; cbn [length]. lia.
      * intros rd5 fuel5 Hr5 Hf5. rewrite <- V. apply IH; try assumption. apply Hr5.
Qed.
End TimeFile.

(** ** Group names *)
Lemma in_group_eq : forall c, in_group_name c = group_char c.
Proof.
  intro c; unfold in_group_name, group_char, isalnum; cbn [existsb].
  destruct (isalpha c), (isdigit c), (Ascii.eqb c "_"), (Ascii.eqb c "*"), (Ascii.eqb c "-"); reflexivity.
Qed.
Lemma runs_step : forall c r, in_group_name c = true -> runs in_group_name (c :: r) =
  match runs in_group_name r with n :: ns => if begins in_group_name r then (c :: n) :: ns else [c] :: n :: ns | [] => [[c]] end.
Proof. intros c r H; cbn [runs]; rewrite H; reflexivity. Qed.
Lemma runs_name : forall s c, in_group_name c = true ->
  runs in_group_name (c :: s) = (c :: firstn (group_length s) s) :: runs in_group_name (skipn (group_length s) s).
Proof.
  induction s as [|d s IH]; intros c Hc; rewrite runs_step by exact Hc; [reflexivity|].
  cbn [group_length begins]. rewrite <- in_group_eq. destruct (in_group_name d) eqn:Hd.
  - rewrite (IH d Hd). reflexivity.
  - cbn [firstn skipn]. destruct (runs in_group_name (d :: s)); reflexivity.
Qed.
Lemma runs_other : forall s c, in_group_name c = false -> runs in_group_name (c :: s) = runs in_group_name s.
Proof. intros s c H; cbn [runs]; rewrite H; reflexivity. Qed.
Lemma group_length_le : forall s, (group_length s <= length s)%nat.
Proof. induction s as [|c s IH]; cbn [group_length length]; [lia|destruct (group_char c); lia]. Qed.
Lemma runs_skip_stop : forall s, runs in_group_name (skipn (S (group_length s)) s) = runs in_group_name (skipn (group_length s) s).
Proof.
  induction s as [|c s IH]; [reflexivity|]. cbn [group_length]. destruct (group_char c) eqn:E; [exact IH|].
  cbn [skipn]. rewrite runs_other; [reflexivity|]. rewrite in_group_eq; exact E.
Qed.
Lemma not_in_existsb : forall (p : ascii -> bool) l, existsb p l = false -> forall c, In c l -> p c = false.
Proof. intros p l H c I. destruct (p c) eqn:E; [|reflexivity]. assert (existsb p l = true) by (apply existsb_exists; eauto). congruence. Qed.

Lemma find_member_runs : forall x, existsb an_operator x = false ->
  match runs in_group_name x with
  | [] => snd (find_member x) = O
  | n :: ns => exists y, find_member x = (y, length n) /\ firstn (length n) y = n /\ n <> [] /\ runs in_group_name (skipn (S (length n)) y) = ns /\
                 (length (skipn (S (length n)) y) < length x)%nat /\ existsb an_operator (skipn (S (length n)) y) = false
  end.
Proof.
  induction x as [|c x IH]; intro H; [reflexivity|]. cbn [existsb] in H; apply orb_false_iff in H; destruct H as [Hc Hx].
  cbn [find_member]. rewrite <- an_operator_eq, Hc. destruct (group_char c) eqn:E.
  - rewrite runs_name by (rewrite in_group_eq; exact E). exists (c :: x). cbn [length]. rewrite firstn_length_le by apply group_length_le.
    repeat split.
    + discriminate.
    + change (skipn (S (S (group_length x))) (c :: x)) with (skipn (S (group_length x)) x). apply runs_skip_stop.
    + change (skipn (S (S (group_length x))) (c :: x)) with (skipn (S (group_length x)) x). rewrite skipn_length. lia.
    + change (skipn (S (S (group_length x))) (c :: x)) with (skipn (S (group_length x)) x).
      destruct (existsb an_operator (skipn (S (group_length x)) x)) eqn:Z; [|reflexivity]. apply existsb_exists in Z. destruct Z as (d & Hd & Od).
      rewrite (not_in_existsb an_operator x Hx d) in Od; [discriminate|]. rewrite <- (firstn_skipn (S (group_length x)) x). apply in_app_iff; right; exact Hd.
  - rewrite runs_other by (rewrite in_group_eq; exact E). specialize (IH Hx). destruct (runs in_group_name x) as [|n ns]; [exact IH|].
    destruct IH as (y & E1 & E2 & E3 & E4 & E5 & E6). exists y. repeat split; auto. cbn [length]; lia.
Qed.

Lemma group_loop_known : forall getgr fuel x l blks, existsb an_operator x = false -> (length x < fuel)%nat -> (length l <= blks)%nat ->
  group_loop getgr (fun _ => true) fuel x l blks = Ok (Some (l ++ known getgr (runs in_group_name x))%list).
Proof.
  intros getgr; induction fuel as [|fuel IH]; intros x l blks Ho Hf Hb; [lia|].
  cbn [group_loop]. pose proof (find_member_runs x Ho) as F. destruct (runs in_group_name x) as [|n ns] eqn:R.
  - destruct (find_member x) as [y k]; cbn [snd] in F; subst k. cbn [known flat_map]. rewrite app_nil_r. destruct y; reflexivity.
  - destruct F as (y & E & En & Hn & Er & Hl & Ho'). rewrite E. destruct n as [|c n]; [congruence|]. cbn [length] in *.
    rewrite andb_false_r. rewrite En. cbn [known flat_map].
    set (rest := skipn (S (S (length n))) y) in *.
    destruct (getgr (c :: n)) as [g|].
    + assert (L : (length l <? (if blks <=? length l then blks + 10 else blks))%nat = true).
      { apply Nat.ltb_lt. destruct (blks <=? length l)%nat eqn:Q; [lia|]. apply Nat.leb_gt in Q. exact Q. }
      rewrite L. rewrite IH.
      * rewrite Er, <- app_assoc. reflexivity.
      * exact Ho'.
      * lia.
      * rewrite app_length; cbn [length]. apply Nat.ltb_lt in L. lia.
    + cbn [app]. rewrite IH; [rewrite Er; reflexivity|exact Ho'|lia|destruct (blks <=? length l)%nat; lia].
Qed.

Lemma blk_size_le : forall n, (n <= blk_size n)%nat.
Proof.
  intro n; unfold blk_size. destruct (n =? 0)%nat eqn:E; [apply Nat.eqb_eq in E; lia|].
  apply Nat.eqb_neq in E. pose proof (Nat.div_mod (n - 1 + 10) 10 ltac:(lia)). pose proof (Nat.mod_upper_bound (n - 1 + 10) 10 ltac:(lia)). lia.
Qed.

(** White space does not matter for group names either. *)
Lemma runs_cons : forall c s s', runs in_group_name s = runs in_group_name s' -> begins in_group_name s = begins in_group_name s' ->
  runs in_group_name (c :: s) = runs in_group_name (c :: s').
Proof. intros c s s' H H'; cbn [runs]; rewrite H, H'; reflexivity. Qed.
Lemma blank_not_group : forall c, blank c = true -> in_group_name c = false.
Proof. intros c H; unfold blank in H; apply orb_true_iff in H; destruct H as [H|H]; apply Ascii.eqb_eq in H; subst c; reflexivity. Qed.
Lemma runs_collapse : forall s on, existsb an_operator s = false ->
  runs in_group_name (collapse on s) = runs in_group_name s /\ (on = false -> begins in_group_name (collapse on s) = begins in_group_name s) /\
  existsb an_operator (collapse on s) = false.
Proof.
  induction s as [|c s IH]; intros on H; [repeat split; reflexivity|]. cbn [existsb] in H; apply orb_false_iff in H; destruct H as [Hc H]. cbn [collapse].
  destruct (blank c) eqn:B.
  - pose proof (blank_not_group c B) as N. rewrite (runs_other s c N). destruct (IH true H) as (I1 & _ & I3). destruct on.
    + repeat split; [exact I1|discriminate|exact I3].
    + repeat split; [rewrite runs_other by reflexivity; exact I1|intros _; cbn [begins]; rewrite N; reflexivity|exact I3].
  - destruct (Ascii.eqb c "!"%char) eqn:E; [apply Ascii.eqb_eq in E; subst c; discriminate|].
    destruct (IH false H) as (I1 & I2 & I3). repeat split; [apply runs_cons; [exact I1|apply I2; reflexivity]|]. cbn [existsb]; rewrite Hc; exact I3.
Qed.
Lemma runs_app_space : forall s, runs in_group_name (s ++ [" "%char])%list = runs in_group_name s.
Proof. induction s as [|c s IH]; [reflexivity|]. cbn [app]. apply runs_cons; [exact IH|]. destruct s; reflexivity. Qed.
Lemma runs_trim : forall r, runs in_group_name (rev (trim_rev r)) = runs in_group_name (rev r) /\ (forall c, In c (trim_rev r) -> In c r).
Proof.
  induction r as [|c r [IH1 IH2]]; [split; [reflexivity|auto]|]. cbn [trim_rev]. destruct (Ascii.eqb c " "%char) eqn:E; [|split; auto].
  apply Ascii.eqb_eq in E; subst c. split; [|intros c I; right; auto]. rewrite IH1. cbn [rev]. rewrite runs_app_space. reflexivity.
Qed.
Lemma field_runs : forall s, existsb an_operator s = false -> runs in_group_name (field_of s) = runs in_group_name s /\ existsb an_operator (field_of s) = false.
Proof.
  intros s H. destruct (runs_collapse s true H) as (I1 & _ & I3). unfold field_of, trimmed.
  destruct (runs_trim (rev (collapse true s))) as [T1 T2]. rewrite T1, rev_involutive. split; [exact I1|].
  destruct (existsb an_operator (rev (trim_rev (rev (collapse true s))))) eqn:Z; [|reflexivity]. apply existsb_exists in Z. destruct Z as (d & Hd & Od).
  apply in_rev in Hd. apply T2 in Hd. apply in_rev in Hd. rewrite (not_in_existsb an_operator _ I3 d Hd) in Od; discriminate.
Qed.

Section GroupFile.
Variable q : asker.
Hypothesis Hq : asker_ok q.
Variable opens : option file.
Variable getgr : cstr -> option Z.
Let run := group_rules (who_of q) (a_grp q) getgr (fun _ _ => true) (now_of q) opens.

Lemma group_rules_comment : forall n t tail fuel rd ret l k v, (length t < n)%nat -> ~ In NUL (t ++ c_nl :: tail)%list -> ~ In c_nl t ->
  (forall s, reads opens rd s (t ++ c_nl :: tail)%list) -> (length (t ++ c_nl :: tail) < fuel)%nat ->
  (forall rd' fuel', (forall s, reads opens rd' s tail) -> (length tail < fuel')%nat -> run fuel' rd' SNl ret l k = v) ->
  run fuel rd SComment ret l k = v.
Proof.
  induction n as [|n IH]; intros t tail fuel rd ret l k v Hl Hn Hc Hr Hf K; [lia|].
  destruct fuel as [|fuel]; [lia|]. unfold run. cbn [group_rules].
  destruct (read_comment opens rd t tail (Hr SComment) Hn Hc) as (rd' & st' & E & [[-> H]|[-> (t' & H1 & H2 & H3 & H4)]]); rewrite E.
  - apply K; [exact H|]. rewrite app_length in Hf; cbn [length] in Hf; lia.
  - apply (IH t' tail); try assumption; [lia| |].
    + apply no_nul_app; [exact H1|]. intro I; apply Hn, in_app_iff; right; exact I.
    + rewrite app_length in *; cbn [length] in *; lia.
Qed.

Lemma group_rules_file : forall ls ms, group_file ls ms -> Forall (line_ok 5) ls -> Forall (fun m => meaning_ok q (fst m)) ms ->
  forall fuel rd ret l k, reads opens rd SNl (file_text ls) -> (length (file_text ls) < fuel)%nat ->
  run fuel rd SNl ret l k = Ok (ret, (l ++ granted q getgr ms)%list).
Proof.
  induction 1 as [|b c ls ms Htf IH|s t u f g c m ls ms Hs Ht Hu Hf Hgo Htf IH]; intros Hok Hm fuel rd ret l k Hr Hlen.
  - destruct fuel as [|fuel]; [lia|]. unfold run. cbn [group_rules]. destruct (read_end opens rd SNl Hr) as [rd' ->]. cbn [granted flat_map]. rewrite app_nil_r. reflexivity.
  - inversion Hok as [|? ? Hl Hls]; subst. destruct fuel as [|fuel]; [lia|]. destruct Hl as (Hb & Hbl & Hc).
    pose proof (file_no_nul 5 ls Hls) as N2. rewrite file_cons in Hr, Hlen. cbn [line_text] in Hr, Hlen. rewrite <- app_assoc in Hr.
    destruct (read_last opens rd SNl b c (file_text ls) Hr) as (rd' & st' & E & Hst); try assumption; try discriminate.
    { apply no_nul_app; [apply raw_no_nul, Hb|apply no_nul_app; [apply end_no_nul, Hc|exact N2]]. }
    unfold run. cbn [group_rules]. rewrite E, (field_empty b Hbl).
    rewrite !app_length in Hlen.
    assert (Le : (1 <= length (end_text c))%nat) by (destruct c; cbn [end_text length]; lia).
    destruct Hst as [[-> H]|[-> (t' & H1 & H2 & H3 & H4)]].
    + apply IH; try assumption; [apply H|lia].
    + rewrite app_length in H3. eapply group_rules_comment; [apply (le_n (S (length t')))| |exact H2|exact H4| |].
      * apply no_nul_app; [exact H1|apply no_nul_cons; [discriminate|exact N2]].
      * rewrite app_length; cbn [length]. lia.
      * intros rd2 fuel2 Hr2 Hf2. apply IH; try assumption. apply Hr2.
  - inversion Hok as [|? ? Hl Hls]; subst. inversion Hm as [|? ? Hmo Hms]; subst. destruct fuel as [|fuel]; [lia|].
    destruct Hl as (_ & Hfs & Hgok & Hc & Hne). inversion Hfs as [|? ? So F1]; subst. inversion F1 as [|? ? To F2]; subst. inversion F2 as [|? ? Uo F3]; subst. inversion F3 as [|? ? Fo _]; subst.
    pose proof (file_no_nul 5 ls Hls) as N2. rewrite file_cons in Hr, Hlen. cbn [line_text flat_map] in Hr, Hlen.
    rewrite app_nil_r in Hr, Hlen. repeat rewrite <- app_assoc in Hr. cbn [app] in Hr.
    pose proof (raw_no_nul s So) as Ns. pose proof (raw_no_nul t To) as Nt. pose proof (raw_no_nul u Uo) as Nu. pose proof (raw_no_nul f Fo) as Nf.
    pose proof (raw_no_nul g Hgok) as Ng. pose proof (end_no_nul c Hc) as Nc.
    assert (N3 : ~ In NUL (raw_text g ++ end_text c ++ file_text ls)%list) by (repeat apply no_nul_app; assumption).
    assert (N3' : ~ In NUL (raw_text f ++ ";"%char :: raw_text g ++ end_text c ++ file_text ls)%list) by (apply no_nul_app; [assumption|apply no_nul_cons; [discriminate|assumption]]).
    assert (N4 : ~ In NUL (raw_text u ++ ";"%char :: raw_text f ++ ";"%char :: raw_text g ++ end_text c ++ file_text ls)%list) by (apply no_nul_app; [assumption|apply no_nul_cons; [discriminate|assumption]]).
    assert (N5 : ~ In NUL (raw_text t ++ ";"%char :: raw_text u ++ ";"%char :: raw_text f ++ ";"%char :: raw_text g ++ end_text c ++ file_text ls)%list) by (apply no_nul_app; [assumption|apply no_nul_cons; [discriminate|assumption]]).
    assert (N6 : ~ In NUL (raw_text s ++ ";"%char :: raw_text t ++ ";"%char :: raw_text u ++ ";"%char :: raw_text f ++ ";"%char :: raw_text g ++ end_text c ++ file_text ls)%list) by (apply no_nul_app; [assumption|apply no_nul_cons; [discriminate|assumption]]).
    destruct Hq as (Q1 & Q2 & Q3 & Q4). cbn [fst] in Hmo. destruct Hmo as (M1 & M2 & M3 & M4).
    destruct (read_mid opens rd SNl s _ Hr N6 ltac:(discriminate) So) as (rd1 & E1 & R1).
    destruct (read_mid opens rd1 SField t _ (R1 SField) N5 ltac:(discriminate) To) as (rd2 & E2 & R2).
    destruct (read_mid opens rd2 SField u _ (R2 SField) N4 ltac:(discriminate) Uo) as (rd3 & E3 & R3).
    destruct (read_mid opens rd3 SField f _ (R3 SField) N3' ltac:(discriminate) Fo) as (rd3' & E3' & R3').
    destruct (read_last opens rd3' SField g c _ (R3' SField) N3 ltac:(discriminate) Hgok Hc) as (rd4 & st4 & E4 & Hst).
    unfold run. cbn [group_rules]. rewrite E1. destruct (field_nonempty s Hne) as (c1 & f1 & En).
    pose proof (field_names (a_service q) s (m_services m) Hs M1 Q1) as V1. rewrite En in V1 |- *. cbv iota.
    change (w_service (who_of q)) with (a_service q). rewrite V1. cbn [bind]. rewrite E2.
    change (w_tty (who_of q)) with (a_tty q). rewrite (field_names (a_tty q) t (m_ttys m) Ht M2 Q2). cbn [bind]. rewrite E3.
    rewrite (field_group_users q u (m_users m) Hu M3 Q3). cbn [bind]. rewrite E3'.
    pose proof (field_times (a_day q) (a_hm q) f (m_times m) Hf Q4 M4) as V4. fold (now_of q) (times_match q m) in V4.
    rewrite V4. cbn [bind]. rewrite E4.
    rewrite !app_length in Hlen. cbn [length] in Hlen.
    assert (Le : (1 <= length (end_text c))%nat) by (destruct c; cbn [end_text length]; lia).
    fold (applies q m).
    destruct (field_runs (chars g) Hgo) as [G1 G2].
    assert (Mk : mkgrplist getgr (fun _ => true) (field_of (chars g)) l = Ok (Some (l ++ known getgr (runs in_group_name (chars g)))%list)).
    { unfold mkgrplist. rewrite group_loop_known; [rewrite G1; reflexivity|exact G2|lia|apply blk_size_le]. }
    cbn [granted flat_map]. fold (granted q getgr ms).
    assert (V : forall l', l' = (l ++ (if applies q m && times_match q m then known getgr (runs in_group_name (chars g)) else []))%list ->
       (forall fuel rd, reads opens rd SNl (file_text ls) -> (length (file_text ls) < fuel)%nat ->
         group_rules (who_of q) (a_grp q) getgr (fun _ _ => true) (now_of q) opens fuel rd SNl ret l' (S k) =
         Ok (ret, (l ++ (if applies q m && times_match q m then known getgr (runs in_group_name (chars g)) else []) ++ granted q getgr ms)%list))).
    { intros l' -> fuel' rd' Hr' Hl'. rewrite app_assoc. apply IH; assumption. }
    destruct Hst as [[-> H]|[-> (t' & H1 & H2 & H3 & H4)]]; cbv iota.
    + destruct (applies q m && times_match q m).
      * rewrite Mk. cbn [bind]. apply V; [reflexivity|apply H|lia].
      * apply V; [rewrite app_nil_r; reflexivity|apply H|lia].
    + rewrite app_length in H3.
      assert (W : forall l', l' = (l ++ (if applies q m && times_match q m then known getgr (runs in_group_name (chars g)) else []))%list ->
         group_rules (who_of q) (a_grp q) getgr (fun _ _ => true) (now_of q) opens fuel rd4 SComment ret l' (S k) =
         Ok (ret, (l ++ (if applies q m && times_match q m then known getgr (runs in_group_name (chars g)) else []) ++ granted q getgr ms)%list)).
      { intros l' Hl'. eapply group_rules_comment; [apply (le_n (S (length t')))| |exact H2|exact H4| |].
        - apply no_nul_app; [exact H1|apply no_nul_cons; [discriminate|exact N2]].
        - rewrite app_length; cbn [length]. lia.
        - intros rd5 fuel5 Hr5 Hf5. apply V; [exact Hl'|apply Hr5|exact Hf5]. }
      destruct (applies q m && times_match q m).
      * rewrite Mk. cbn [bind]. apply W; reflexivity.
      * apply W; rewrite app_nil_r; reflexivity.
Qed.
End GroupFile.

(** ** Termination on every file *)
Definition pending (opens : option file) (rd : reader) : nat :=
  match rd with
  | ROpen keep fd => length keep + match fd with Some f => length (data f) | None => 0 end
  | RStart | RGone => match opens with Some f => S (length (data f)) | None => 0 end
  end.
Lemma before_nul_le : forall l, (length (before_nul l) <= length l)%nat.
Proof. induction l as [|c l IH]; cbn [before_nul length]; [lia|]. destruct (Ascii.eqb c NUL); cbn [length]; lia. Qed.
Lemma scan_shrinks : forall n src st on acc, (length src <= n)%nat -> let '(found, st1, _, rest) := scan st on acc src in
  (found = true -> (length rest < length src)%nat) /\ (length rest <= length src)%nat /\ (found = true -> st1 = SNl \/ st1 = SField).
Proof.
  induction n as [|n IH]; intros src st on acc L.
  { destruct src; [cbn; repeat split; (discriminate || lia)|cbn [length] in L; lia]. }
  destruct src as [|c r]; [cbn; repeat split; (discriminate || lia)|]. cbn [length] in L.
  assert (K : forall st' on' acc' q, (length q <= length r)%nat -> let '(found, st1, _, rest) := scan st' on' acc' q in
     (found = true -> (length rest < length (c :: r))%nat) /\ (length rest <= length (c :: r))%nat /\ (found = true -> st1 = SNl \/ st1 = SField)).
  { intros st' on' acc' q Lq. specialize (IH q st' on' acc' ltac:(lia)). destruct (scan st' on' acc' q) as [[[fo s'] ac] rest]. cbn [length].
    destruct IH as (I1 & I2 & I3). repeat split; [intro F; specialize (I1 F); lia|lia|exact I3]. }
  cbn [scan].
  destruct (Ascii.eqb c NUL); [cbn [length]; repeat split; (discriminate || lia)|].
  destruct (match st with SComment => _ | _ => _ end); [apply K; lia|].
  destruct (Ascii.eqb c c_nl); [cbn [length]; repeat split; auto; lia|].
  destruct (Ascii.eqb c c_tab || Ascii.eqb c c_space); [destruct on; apply K; lia|].
  destruct (Ascii.eqb c "!"%char); [apply K; lia|].
  destruct (Ascii.eqb c c_hash); [apply K; lia|].
  destruct (Ascii.eqb c ";"%char); [cbn [length]; repeat split; auto; lia|].
  destruct r as [|d r]; [apply K; cbn [length]; lia|].
  destruct (Ascii.eqb c c_bslash && Ascii.eqb d c_nl); apply K; cbn [length]; lia.
Qed.
Lemma fill_length : forall keep fd buf fd', fill keep fd = Some (buf, fd') ->
  (length buf + match fd' with Some f => length (data f) | None => 0 end = length keep + match fd with Some f => length (data f) | None => 0 end)%nat.
Proof.
  intros keep [f|] buf fd'; unfold fill; intro H; [|inversion H; subst; reflexivity].
  destruct (BUFLEN - length keep =? 0)%nat; [inversion H; subst; reflexivity|].
  destruct (BUFLEN - length keep <=? length (data f))%nat eqn:E.
  - inversion H; subst. cbn [data]. rewrite app_length, firstn_length, skipn_length. apply Nat.leb_le in E. lia.
  - destruct (bad f); [discriminate|]. inversion H; subst. rewrite app_length. lia.
Qed.
Lemma read_shrinks : forall opens rd st rd' st' b, read_field opens rd st = (rd', st', b) ->
  st' = SEof /\ b = None \/ (pending opens rd' < pending opens rd)%nat /\ st' <> SEof /\ b <> None.
Proof.
  intros opens rd st rd' st' b H.
  assert (G : forall st0 keep fd p, (length keep + match fd with Some f => length (data f) | None => 0 end <= p)%nat ->
    match fill keep fd with
      | None => (RGone, SEof, None)
      | Some ([], _) => (RGone, SEof, None)
      | Some (buf, fd) =>
        let '(found, st, acc, rest) := scan st0 true [] buf in
        if (found : bool) then (ROpen (before_nul rest) fd, st, Some (trimmed acc))
        else match st with
             | SComment => (ROpen [] fd, SComment, Some (trimmed acc))
             | _ => (ROpen [] fd, SComment, Some [])
             end
      end = (rd', st', b) -> st' = SEof /\ b = None \/ (pending opens rd' < p)%nat /\ st' <> SEof /\ b <> None).
  { intros st0 keep fd p Hp E. destruct (fill keep fd) as [[buf fd']|] eqn:F; [|inversion E; auto].
    destruct buf as [|c buf]; [inversion E; auto|]. right.
    pose proof (fill_length keep fd (c :: buf) fd' F) as FL. cbn [length] in FL.
    pose proof (scan_shrinks (length (c :: buf)) (c :: buf) st0 true [] (le_n _)) as SS.
    destruct (scan st0 true [] (c :: buf)) as [[[found st1] acc] rest]. destruct SS as (S1 & S2 & S3). cbn [length] in *.
    destruct found.
    - inversion E; subst. specialize (S1 eq_refl). specialize (S3 eq_refl). pose proof (before_nul_le rest). cbn [pending].
      repeat split; [destruct fd'; lia|destruct S3 as [-> | ->]; discriminate|discriminate].
    - destruct st1; inversion E; subst; cbn [pending length]; (repeat split; [destruct fd'; lia|discriminate|discriminate]). }
  unfold read_field in H. destruct rd as [|keep fd|]; cbn [pending].
  - destruct opens as [f|]; [|inversion H; auto]. eapply (G SNl [] (Some f)); [cbn [length]; lia|exact H].
  - eapply (G st keep fd); [lia|exact H].
  - destruct opens as [f|]; [|inversion H; auto]. eapply (G SNl [] (Some f)); [cbn [length]; lia|exact H].
Qed.
