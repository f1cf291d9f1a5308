(** What pam_env's files mean, independently of the code, and lemmas. *)
From Coq Require Import String Ascii List Arith ZArith Bool Lia.
From Verif Require Import Base Num_Model Str_Model Str_Facts Opt_Model Opt_Facts Line_Model Env_Model Env_Spec Env_Proofs Env_Props Pamenv_Model.
Import ListNotations.
Local Open Scope Z_scope.

(** ** Expansion *)

(** [yields var item s t ok]: the text [t] is what [s] stands for; not [ok]: a brace is not closed, and [t] is what stands before. *)
Inductive yields (var item : cstr -> option cstr) : cstr -> cstr -> bool -> Prop :=
| y_end : yields var item [] [] true
| y_plain : forall c s t ok, c <> "\"%char -> c <> "$"%char -> c <> "@"%char -> yields var item s t ok -> yields var item (c :: s) (c :: t) ok
| y_escaped : forall c s t ok, (c = "\"%char \/ c = "$"%char \/ c = "@"%char) -> yields var item s t ok -> yields var item ("\"%char :: c :: s) (c :: t) ok
| y_dropped : forall s t ok, (forall c s', s = c :: s' -> c <> "\"%char /\ c <> "$"%char /\ c <> "@"%char) -> yields var item s t ok -> yields var item ("\"%char :: s) t ok
| y_alone : forall c s t ok, (c = "$"%char \/ c = "@"%char) -> (forall s', s <> "{"%char :: s') -> yields var item s t ok -> yields var item (c :: s) (c :: t) ok
| y_var : forall n s t ok, ~ In "}"%char n -> yields var item s t ok ->
    yields var item ("$"%char :: "{"%char :: n ++ "}"%char :: s) (match var n with Some v => v | None => [] end ++ t) ok
| y_item : forall n s t ok, ~ In "}"%char n -> yields var item s t ok ->
    yields var item ("@"%char :: "{"%char :: n ++ "}"%char :: s) (match item n with Some v => v | None => [] end ++ t) ok
| y_open : forall c s, (c = "$"%char \/ c = "@"%char) -> ~ In "}"%char s -> yields var item (c :: "{"%char :: s) [] false.

(** The items by name. *)
Inductive item_is (I : items) : cstr -> option cstr -> Prop :=
| it_user : item_is I (lit "PAM_USER") (i_user I)
| it_prompt : item_is I (lit "PAM_USER_PROMPT") (i_prompt I)
| it_tty : item_is I (lit "PAM_TTY") (i_tty I)
| it_ruser : item_is I (lit "PAM_RUSER") (i_ruser I)
| it_rhost : item_is I (lit "PAM_RHOST") (i_rhost I)
| it_home : forall u, i_user I = Some u -> item_is I (lit "HOME") (match i_pw I u with Some (d, _) => Some d | None => None end)
| it_shell : forall u, i_user I = Some u -> item_is I (lit "SHELL") (match i_pw I u with Some (_, s) => Some s | None => None end)
| it_nobody : forall n, i_user I = None -> n = lit "HOME" \/ n = lit "SHELL" -> item_is I n None
| it_other : forall n, ~ In n (map lit ["PAM_USER"; "PAM_USER_PROMPT"; "PAM_TTY"; "PAM_RUSER"; "PAM_RHOST"; "HOME"; "SHELL"]%string) -> item_is I n None.

Lemma item_byname_is : forall I n, item_is I n (item_byname I n).
Proof.
  intros I n. unfold item_byname. destruct (streq n (lit "PAM_USER")) eqn:E1; [apply streq_eq in E1; subst n; cbn [orb streq]; replace (streq (lit "PAM_USER") (lit "HOME")) with false by reflexivity; replace (streq (lit "PAM_USER") (lit "SHELL")) with false by reflexivity; cbn [orb]; pose proof (it_user I) as X; destruct (i_user I); exact X|].
  destruct (streq n (lit "HOME")) eqn:E2.
  { apply streq_eq in E2. subst n. replace (streq (lit "HOME") (lit "SHELL")) with false by reflexivity. cbn [orb]. destruct (i_user I) as [u|] eqn:U; [|apply it_nobody; auto]. pose proof (it_home I u U) as X. destruct (i_pw I u) as [(d, s)|]; exact X. }
  destruct (streq n (lit "SHELL")) eqn:E3.
  { apply streq_eq in E3. subst n. cbn [orb]. destruct (i_user I) as [u|] eqn:U; [|apply it_nobody; auto]. pose proof (it_shell I u U) as X. destruct (i_pw I u) as [(d, s)|]; exact X. }
  cbn [orb]. destruct (streq n (lit "PAM_USER_PROMPT")) eqn:E4; [apply streq_eq in E4; subst n; pose proof (it_prompt I) as X; destruct (i_prompt I); exact X|].
  destruct (streq n (lit "PAM_TTY")) eqn:E5; [apply streq_eq in E5; subst n; pose proof (it_tty I) as X; destruct (i_tty I); exact X|].
  destruct (streq n (lit "PAM_RUSER")) eqn:E6; [apply streq_eq in E6; subst n; pose proof (it_ruser I) as X; destruct (i_ruser I); exact X|].
  destruct (streq n (lit "PAM_RHOST")) eqn:E7; [apply streq_eq in E7; subst n; pose proof (it_rhost I) as X; destruct (i_rhost I); exact X|].
  apply it_other. cbn [map In]. intros H. repeat (destruct H as [<-|H]; [rewrite streq_refl in *; discriminate|]). destruct H.
Qed.
Lemma item_is_unique : forall I n v w, item_is I n v -> item_is I n w -> v = w.
Proof.
  assert (K : forall I n v, item_is I n v -> v = item_byname I n); [|intros I n v w A B; rewrite (K _ _ _ A), (K _ _ _ B); reflexivity].
  intros I n v A. unfold item_byname. destruct A as [| | | | |u E|u E|n E [->| ->]|n N].
  - cbn. destruct (i_user I); reflexivity.
  - cbn. destruct (i_prompt I); reflexivity.
  - cbn. destruct (i_tty I); reflexivity.
  - cbn. destruct (i_ruser I); reflexivity.
  - cbn. destruct (i_rhost I); reflexivity.
  - cbn. rewrite E. destruct (i_pw I u) as [(d, s)|]; reflexivity.
  - cbn. rewrite E. destruct (i_pw I u) as [(d, s)|]; reflexivity.
  - cbn. rewrite E. reflexivity.
  - cbn. rewrite E. reflexivity.
  - assert (X : forall k, In k (map lit ["PAM_USER"; "PAM_USER_PROMPT"; "PAM_TTY"; "PAM_RUSER"; "PAM_RHOST"; "HOME"; "SHELL"]%string) -> streq n k = false).
    { intros k IK. destruct (streq n k) eqn:E; [|reflexivity]. apply streq_eq in E. subst k. contradiction. }
    rewrite !X by (cbn [map In]; auto 10). reflexivity.
Qed.

(** ** The buffer *)

(** A buffer that can be there: nothing allocated, or room for the string and its NUL. *)
Definition sound (b : sbuf) : Prop := b_size b = 0 /\ b_str b = [] \/ b_len b < b_size b <= SIZE_MAX.

Lemma add_string_sound : forall grow b s, sound b -> Z.of_nat (length s) <= SIZE_MAX ->
  (exists b', add_string grow b s = Ok (Some b') /\ sound b' /\ b_str b' = (b_str b ++ s)%list) \/
  add_string grow b s = Ok None /\ ((exists n, grow n = false) \/ SIZE_MAX <= b_len b + Z.of_nat (length s)).
Proof.
  intros grow b s SB LS. unfold add_string, reserve. set (add := Z.of_nat (length s)) in *. assert (A0 : 0 <= add) by (unfold add; lia). assert (L0 : 0 <= b_len b) by (unfold b_len; lia).
  assert (SM : SIZE_MAX = 18446744073709551615) by reflexivity.
  assert (BL : forall b', b_str b' = (b_str b ++ s)%list -> b_len b' = b_len b + add). { intros b' E. unfold b_len, add. rewrite E, app_length. lia. }
  assert (SZ : 0 <= b_size b - b_len b <= SIZE_MAX). { destruct SB as [(S0 & B0)|SB]; [unfold b_len; rewrite S0, B0; cbn; lia|lia]. }
  rewrite (Z.mod_small (b_size b - b_len b)) by lia. destruct (Z.ltb_spec add (b_size b - b_len b)) as [H|H].
  { left. destruct (Z.leb_spec (b_len b + add + 1) (b_size b)); [|lia]. eexists. split; [reflexivity|]. split; [|reflexivity].
    right. rewrite (BL (mkSbuf (b_str b ++ s) (b_size b)) eq_refl). cbn [b_size]. destruct SB as [(S0 & B0)|SB]; lia. }
  rewrite (Z.mod_small (SIZE_MAX - add)) by lia. destruct (Z.leb_spec (SIZE_MAX - add) (b_len b)) as [H1|H1]; [right; split; [reflexivity|right; lia]|].
  rewrite (Z.mod_small (b_len b + add + 1)) by lia.
  set (sz := if (b_size b =? 0) && (add <? 64) then 64 else if (SIZE_MAX / 2 <=? b_size b) || ((b_size b * 2) mod (SIZE_MAX + 1) <? b_len b + add + 1) then b_len b + add + 1 else (b_size b * 2) mod (SIZE_MAX + 1)).
  assert (SZ2 : b_len b + add + 1 <= sz <= SIZE_MAX).
  { unfold sz. destruct (Z.eqb_spec (b_size b) 0) as [E|E]; cbn [andb].
    - destruct (Z.ltb_spec add 64) as [A|A]; [|].
      + destruct SB as [(_ & B0)|SB]; [|lia]. unfold b_len. rewrite B0. cbn. lia.
      + destruct (Z.leb_spec (SIZE_MAX / 2) (b_size b)); cbn [orb]; [lia|]. rewrite E. cbn [Z.mul]. rewrite Z.mod_0_l by lia. destruct (Z.ltb_spec 0 (b_len b + add + 1)); lia.
    - assert (D2 : SIZE_MAX / 2 = 9223372036854775807) by reflexivity. destruct (Z.leb_spec (SIZE_MAX / 2) (b_size b)); cbn [orb]; [lia|]. destruct SB as [(S0 & _)|SB]; [lia|]. rewrite Z.mod_small by lia. destruct (Z.ltb_spec (b_size b * 2) (b_len b + add + 1)); lia. }
  clearbody sz. destruct (grow sz) eqn:G; [|right; split; [reflexivity|left; exists sz; exact G]]. left. cbn [b_size b_str]. unfold b_len at 1. cbn [b_str]. fold (b_len b).
  destruct (Z.leb_spec (b_len b + add + 1) sz); [|lia]. eexists. split; [reflexivity|]. split; [|reflexivity]. right. rewrite (BL (mkSbuf (b_str b ++ s) sz) eq_refl). cbn [b_size]. lia.
Qed.

(** What a variable has, for every name: pam_getenv does not go wrong. *)
Definition has (env : option environ) (n : cstr) : option cstr := match getenv env (Some n) with Ok v => v | _ => None end.
Lemma has_getenv : forall env n, lived env -> getenv env (Some n) = Ok (has env n).
Proof. intros env n L. destruct (getenv_never_undefined env (Some n) L) as (r & E). unfold has. rewrite E. reflexivity. Qed.

(** All strings that can be looked up are shorter than memory. *)
Definition fits (env : option environ) (I : items) : Prop :=
  (forall n s, has env n = Some s -> Z.of_nat (length s) <= SIZE_MAX) /\ (forall n s, item_byname I n = Some s -> Z.of_nat (length s) <= SIZE_MAX).

Lemma special_iff : forall c, among [c_bslash; "$"%char; "@"%char] c = true <-> c = "\"%char \/ c = "$"%char \/ c = "@"%char.
Proof. intro c. rewrite among_iff. cbn [In]. change c_bslash with "\"%char. intuition. Qed.

Lemma expand_loop_yields : forall grow env I, lived env -> fits env I -> forall fuel s pos cutat b, (length s < fuel)%nat -> sound b ->
  (match cutat with Some a => (a <= pos + length s)%nat | None => True end) ->
  exists r cutat' b' t ok, expand_loop grow env I fuel s pos cutat b = Ok (r, cutat', b') /\ yields (has env) (item_byname I) s t ok /\
    (match cutat' with Some a => (a <= pos + length s)%nat | None => True end) /\
    ((r = PAM_SUCCESS /\ ok = true /\ b_str b' = (b_str b ++ t)%list) \/ (r = PAM_ABORT /\ ok = false) \/
     (r = PAM_BUF_ERR /\ ((exists n, grow n = false) \/ SIZE_MAX <= b_len b + Z.of_nat (length t)))).
Proof.
  intros grow env I L (F1 & F2). induction fuel as [|n IH]; intros s pos cutat b LT SB CA; [lia|].
  assert (PUT : forall x rest used cutat (u : cstr), (length rest < n)%nat -> (pos + used + length rest = pos + length s)%nat -> Z.of_nat (length x) <= SIZE_MAX ->
    (match cutat with Some a => (a <= pos + length s)%nat | None => True end) ->
    exists r cutat' b' t ok, bind (add_string grow b x) (fun b' => match b' with None => Ok (PAM_BUF_ERR, cutat, b) | Some b' => expand_loop grow env I n rest (pos + used)%nat cutat b' end) = Ok (r, cutat', b') /\
      yields (has env) (item_byname I) rest t ok /\ (match cutat' with Some a => (a <= pos + length s)%nat | None => True end) /\
      ((r = PAM_SUCCESS /\ ok = true /\ b_str b' = (b_str b ++ x ++ t)%list) \/ (r = PAM_ABORT /\ ok = false) \/
       (r = PAM_BUF_ERR /\ ((exists n, grow n = false) \/ SIZE_MAX <= b_len b + Z.of_nat (length (x ++ t)))))).
  { intros x rest used cut0 u LR LP LX CA0. destruct (add_string_sound grow b x SB LX) as [(b1 & E & SB1 & B1)|(E & BAD)]; rewrite E; cbn [bind].
    - destruct (IH rest (pos + used)%nat cut0 b1 LR SB1) as (r & c' & b' & t & ok & R & Y & C & D); [destruct cut0; [lia|exact Logic.I]|]. exists r, c', b', t, ok. split; [exact R|]. split; [exact Y|].
      split; [destruct c'; [lia|exact Logic.I]|]. destruct D as [(-> & -> & D)|[D|(-> & D)]]; [left; rewrite D, B1, <- app_assoc; auto|right; left; exact D|]. right. right. split; [reflexivity|]. destruct D as [D|D]; [left; exact D|right].
      unfold b_len in *. rewrite B1 in D. rewrite app_length in *. lia.
    - destruct (IH rest (pos + used)%nat None (mkSbuf [] 0) LR) as (r & c' & b' & t & ok & R & Y & C & D); [left; auto|exact Logic.I|]. exists PAM_BUF_ERR, cut0, b, t, ok. split; [reflexivity|]. split; [exact Y|]. split; [exact CA0|].
      right. right. split; [reflexivity|]. destruct BAD as [BAD|BAD]; [left; exact BAD|right; rewrite app_length; lia]. }
  assert (ONE : forall c : ascii, Z.of_nat (length [c]) <= SIZE_MAX) by (intro c; cbn; unfold SIZE_MAX; lia).
  cbn [expand_loop]. destruct s as [|c r]; [exists PAM_SUCCESS, cutat, b, [], true; split; [reflexivity|]; split; [constructor|]; split; [exact CA|]; left; rewrite app_nil_r; auto|].
  cbn [length] in LT. destruct (Ascii.eqb_spec c c_bslash) as [->|NB].
  { assert (DROP : (forall c s', r = c :: s' -> c <> "\"%char /\ c <> "$"%char /\ c <> "@"%char) -> exists r0 cutat' b' t ok, expand_loop grow env I n r (pos + 1)%nat cutat b = Ok (r0, cutat', b') /\ yields (has env) (item_byname I) (c_bslash :: r) t ok /\
      (match cutat' with Some a => (a <= pos + length (c_bslash :: r))%nat | None => True end) /\ ((r0 = PAM_SUCCESS /\ ok = true /\ b_str b' = (b_str b ++ t)%list) \/ (r0 = PAM_ABORT /\ ok = false) \/
       (r0 = PAM_BUF_ERR /\ ((exists n, grow n = false) \/ SIZE_MAX <= b_len b + Z.of_nat (length t))))).
    { intro ND. destruct (IH r (pos + 1)%nat cutat b ltac:(lia) SB) as (r0 & c' & b' & t & ok & R & Y & C & D); [cbn [length] in CA; destruct cutat; [lia|exact Logic.I]|]. exists r0, c', b', t, ok. split; [exact R|]. split; [apply (y_dropped _ _ r); assumption|].
      split; [cbn [length]; destruct c'; [lia|exact Logic.I]|exact D]. }
    destruct r as [|x r']; [apply DROP; discriminate|]. destruct (among [c_bslash; "$"%char; "@"%char] x) eqn:AX.
    - apply special_iff in AX. cbn [length] in *. destruct (PUT [x] r' 2%nat cutat [] ltac:(lia) ltac:(lia) (ONE x) CA) as (r0 & c' & b' & t & ok & R & Y & C & D).
      exists r0, c', b', (x :: t), ok. split; [exact R|]. split; [apply y_escaped; assumption|]. split; [exact C|exact D].
    - apply DROP. intros c s' E. injection E as E _. rewrite E in AX. split; [|split]; intros ->; cbv in AX; discriminate. }
  destruct (Ascii.eqb c "$"%char || Ascii.eqb c "@"%char) eqn:SP.
  - apply orb_true_iff in SP. assert (SC : c = "$"%char \/ c = "@"%char) by (destruct SP as [E|E]; apply Ascii.eqb_eq in E; auto). clear SP.
    assert (ALONE : (forall s', r <> "{"%char :: s') -> exists r0 cutat' b' t ok, bind (add_string grow b [c]) (fun b' => match b' with None => Ok (PAM_BUF_ERR, cutat, b) | Some b' => expand_loop grow env I n r (pos + 1)%nat cutat b' end) = Ok (r0, cutat', b') /\
      yields (has env) (item_byname I) (c :: r) t ok /\ (match cutat' with Some a => (a <= pos + length (c :: r))%nat | None => True end) /\ ((r0 = PAM_SUCCESS /\ ok = true /\ b_str b' = (b_str b ++ t)%list) \/ (r0 = PAM_ABORT /\ ok = false) \/
       (r0 = PAM_BUF_ERR /\ ((exists n, grow n = false) \/ SIZE_MAX <= b_len b + Z.of_nat (length t))))).
    { intro NX. cbn [length] in *. destruct (PUT [c] r 1%nat cutat [] ltac:(lia) ltac:(lia) (ONE c) CA) as (r0 & c' & b' & t & ok & R & Y & C & D). exists r0, c', b', (c :: t), ok. split; [exact R|]. split; [apply y_alone; assumption|]. split; [exact C|exact D]. }
    destruct r as [|x r']; [apply ALONE; discriminate|]. destruct (Ascii.eqb_spec x "{"%char) as [->|NX]; cbn [negb]; [|apply ALONE; intros s' E; congruence].
    destruct (split_at "}"%char r') as [(name, rest)|] eqn:SA.
    + apply split_at_some in SA. destruct SA as (-> & NN). assert (LR : (length (name ++ "}"%char :: rest) = length name + S (length rest))%nat) by (rewrite app_length; reflexivity). cbn [length] in LT, CA. rewrite LR in LT, CA.
      set (cut1 := Some (match cutat with Some a => a | None => (pos + 2 + length name)%nat end)).
      assert (C1 : match cut1 with Some a => (a <= pos + length (c :: "{"%char :: name ++ "}"%char :: rest))%nat | None => True end). { unfold cut1. cbn [length]. rewrite LR. destruct cutat; lia. }
      assert (LOOK : forall v t ok, v = (if Ascii.eqb c "$"%char then has env name else item_byname I name) -> yields (has env) (item_byname I) rest t ok ->
        yields (has env) (item_byname I) (c :: "{"%char :: name ++ "}"%char :: rest) (match v with Some s => s | None => [] end ++ t) ok).
      { intros v t ok -> Y. destruct SC as [->| ->]; [apply y_var; assumption|]. replace (Ascii.eqb "@" "$") with false by reflexivity. apply y_item; assumption. }
      assert (GV : (if Ascii.eqb c "$"%char then getenv env (Some name) else Ok (item_byname I name)) = Ok (if Ascii.eqb c "$"%char then has env name else item_byname I name)).
      { destruct (Ascii.eqb c "$"); [apply has_getenv; exact L|reflexivity]. }
      rewrite GV. cbn [bind]. set (v := if Ascii.eqb c "$"%char then has env name else item_byname I name) in *.
      assert (FV : forall s, v = Some s -> Z.of_nat (length s) <= SIZE_MAX). { intros s E. unfold v in E. destruct (Ascii.eqb c "$"); [eapply F1|eapply F2]; exact E. }
      clearbody v. destruct v as [v|].
      * destruct (PUT v rest (3 + length name)%nat cut1 [] ltac:(lia) ltac:(cbn [length]; lia) (FV v eq_refl) C1) as (r0 & c' & b' & t & ok & R & Y & C & D).
        exists r0, c', b', (v ++ t)%list, ok. split; [exact R|]. split; [apply (LOOK (Some v)); [reflexivity|exact Y]|]. split; [exact C|exact D].
      * destruct (IH rest (pos + 3 + length name)%nat cut1 b ltac:(lia) SB) as (r0 & c' & b' & t & ok & R & Y & C & D); [unfold cut1; destruct cutat; lia|].
        exists r0, c', b', t, ok. split; [exact R|]. split; [apply (LOOK None); [reflexivity|exact Y]|]. split; [cbn [length]; rewrite LR; destruct c'; [lia|exact Logic.I]|exact D].
    + apply split_at_none in SA. exists PAM_ABORT, cutat, b, [], false. split; [reflexivity|]. split; [apply y_open; assumption|]. split; [exact CA|]. right. left. auto.
  - apply orb_false_iff in SP. destruct SP as (S1 & S2). apply Ascii.eqb_neq in S1, S2. cbn [length] in *. destruct (PUT [c] r 1%nat cutat [] ltac:(lia) ltac:(lia) (ONE c) CA) as (r0 & c' & b' & t & ok & R & Y & C & D).
    exists r0, c', b', (c :: t), ok. split; [exact R|]. split; [apply y_plain; assumption|]. split; [exact C|exact D].
Qed.

(** ** Lines of the configuration file *)

(** An argument: whether it is OVERRIDE, whether it is quoted, and its text. *)
Definition arg := (bool * bool * cstr)%type.
Definition key (w : bool) : cstr := if w then lit "OVERRIDE=" else lit "DEFAULT=".
Inductive written : bool -> cstr -> cstr -> Prop :=
| w_plain : forall v, (forall c, In c v -> ~ In c stops) -> (forall v', v <> c_dq :: v') -> written false v v
| w_quoted : forall v, ~ In c_dq v -> written true v (c_dq :: v ++ [c_dq]).
(** What follows the name. *)
Inductive args : cstr -> list arg -> Prop :=
| args_nil : args [] []
| args_nl : forall t, args (c_nl :: t) []
| args_cons : forall sp w q v x t l, sp <> [] -> (forall c, In c sp -> In c blanks) -> written q v x -> args t l -> args (sp ++ key w ++ x ++ t) ((w, q, v) :: l).

(** What the arguments set in the order they come, with [q] quotes left over. *)
Fixpoint apply_args (q : nat) (l : list arg) (d o : ptr) : ptr * ptr :=
  match l with
  | [] => (d, o)
  | (w, qd, v) :: l' =>
      let q := if qd : bool then S q else q in
      let set x := if w : bool then (d, x) else (x, o) in
      match v with
      | _ :: _ => let '(d', o') := set (Str v) in apply_args q l' d' o'
      | [] => match q with S q' => let '(d', o') := set Quote in apply_args q' l' d' o' | O => apply_args q l' d o end
      end
  end.

Definition at_stop (t : cstr) : Prop := t = [] \/ exists c t', t = c :: t' /\ among stops c = true.
Lemma args_stop : forall t l, args t l -> at_stop t.
Proof.
  intros t l H. destruct H as [|t|sp w q v x t l NS B _ _]; [left; reflexivity|right; exists c_nl, t; auto|]. right. destruct sp as [|c sp]; [contradiction|]. exists c. eexists. split; [reflexivity|].
  apply among_iff. specialize (B c (or_introl eq_refl)). cbn [In blanks stops] in *. tauto.
Qed.
Lemma span_stop : forall v t, (forall c, In c v -> ~ In c stops) -> at_stop t -> span (fun c => negb (among stops c)) (v ++ t) = (v, t).
Proof.
  intros v t V T. apply span_spec; [apply forallb_forall; intros c I; apply negb_true_iff, among_false, V, I|]. destruct T as [->|(c & t' & -> & A)]; [left; reflexivity|right]. exists c, t'. rewrite A. auto.
Qed.
Lemma value_at_written : forall q v x t, written q v x -> at_stop t -> value_at (x ++ t) = Some (v, t, q).
Proof.
  intros q v x t W T. destruct W as [v V N|v N]; unfold value_at.
  - rewrite (span_stop v t V T). destruct v as [|c v]; cbn [app].
    + destruct T as [->|(c & t' & -> & A)]; [reflexivity|]. destruct (Ascii.eqb_spec c c_dq) as [->|_]; [discriminate A|reflexivity].
    + destruct (Ascii.eqb_spec c c_dq) as [->|_]; [destruct (N v); reflexivity|reflexivity].
  - cbn [app]. rewrite Ascii.eqb_refl. rewrite <- app_assoc. assert (S : split_at c_dq (v ++ [c_dq] ++ t) = Some (v, t)) by (apply split_at_some; auto). rewrite S.
    destruct T as [->|(c & t' & -> & A)]; [reflexivity|]. rewrite A. reflexivity.
Qed.
Lemma value_at_some : forall p v t q, value_at p = Some (v, t, q) -> exists x, written q v x /\ p = (x ++ t)%list /\ at_stop t.
Proof.
  intros p v t q H. unfold value_at in H.
  assert (P : (forall p', p <> c_dq :: p') -> (let '(v, t) := span (fun c => negb (among stops c)) p in Some (v, t, false)) = Some (v, t, q) -> exists x, written q v x /\ p = (x ++ t)%list /\ at_stop t).
  { intros N X. destruct (span (fun c => negb (among stops c)) p) as (v0, t0) eqn:S. injection X as -> -> <-. apply span_app in S. destruct S as (E & F & T). exists v. split.
    - apply w_plain; [intros c I; rewrite forallb_forall in F; apply among_false, negb_true_iff, F, I|]. intros v' ->. apply (N (v' ++ t)%list). exact E.
    - split; [exact E|]. destruct T as [->|(c & t' & -> & A)]; [left; reflexivity|right]. exists c, t'. apply negb_false_iff in A. auto. }
  destruct p as [|c p']; [apply P; [discriminate|exact H]|]. destruct (Ascii.eqb_spec c c_dq) as [->|NC]; [|apply P; [congruence|exact H]].
  destruct (split_at c_dq p') as [(v0, t0)|] eqn:S; [|discriminate]. apply split_at_some in S. destruct S as (-> & N).
  assert (X : v = v0 /\ t = t0 /\ q = true /\ at_stop t0). { destruct t0 as [|x t0]; [injection H as <- <- <-; split; [reflexivity|]; split; [reflexivity|]; split; [reflexivity|left; reflexivity]|].
    destruct (among stops x) eqn:A; [|discriminate]. injection H as <- <- <-. split; [reflexivity|]. split; [reflexivity|]. split; [reflexivity|right; exists x, t0; auto]. }
  destruct X as (-> & -> & -> & T). exists (c_dq :: v0 ++ [c_dq]). split; [apply w_quoted; exact N|]. split; [cbn [app]; rewrite <- app_assoc; reflexivity|exact T].
Qed.
Lemma key_prefix : forall w r, (match skip_prefix (lit "DEFAULT=") (key w ++ r) with
  | Some p2 => Some (false, p2) | None => match skip_prefix (lit "OVERRIDE=") (key w ++ r) with Some p2 => Some (true, p2) | None => None end end) = Some (w, r).
Proof. intros [|] r; reflexivity. Qed.
Lemma key_prefix_some : forall p w r, (match skip_prefix (lit "DEFAULT=") p with
  | Some p2 => Some (false, p2) | None => match skip_prefix (lit "OVERRIDE=") p with Some p2 => Some (true, p2) | None => None end end) = Some (w, r) -> p = (key w ++ r)%list.
Proof.
  intros p w r H. destruct (skip_prefix (lit "DEFAULT=") p) as [p2|] eqn:D; [injection H as <- <-; apply skip_prefix_some in D; exact D|].
  destruct (skip_prefix (lit "OVERRIDE=") p) as [p2|] eqn:O; [injection H as <- <-; apply skip_prefix_some in O; exact O|discriminate].
Qed.
Lemma span_key : forall sp w r, (forall c, In c sp -> In c blanks) -> span (among blanks) (sp ++ key w ++ r) = (sp, (key w ++ r)%list).
Proof.
  intros sp w r B. apply span_spec; [apply forallb_forall; intros c I; apply among_iff, B, I|]. right. destruct w; (eexists; eexists; split; [reflexivity|reflexivity]).
Qed.

Lemma parse_args_args : forall val p l, args p l -> forall fuel q k d o, (length p < fuel)%nat ->
  parse_args val fuel q k p d o = Ok (GOOD_LINE, fst (apply_args q l d o), snd (apply_args q l d o)) \/
  exists d' o', parse_args val fuel q k p d o = Ok (PAM_BUF_ERR, d', o') /\ exists j, val j = false.
Proof.
  intros val p l H. induction H as [|t|sp w qd v x t l NS B W A IH]; intros fuel q k d o LT; (destruct fuel as [|n]; [lia|]); [left; reflexivity|left; reflexivity|].
  cbn [parse_args]. rewrite (span_key sp w (x ++ t) B). destruct sp as [|c0 sp]; [contradiction|]. rewrite key_prefix. rewrite (value_at_written qd v x t W (args_stop _ _ A)).
  assert (LT' : (length t < n)%nat) by (rewrite !app_length in LT; cbn [length] in LT; destruct w; cbn in LT; lia).
  cbn [apply_args]. set (q1 := if qd then S q else q). destruct v as [|c v].
  - destruct q1 as [|q']; [apply IH; exact LT'|]. destruct w; apply IH; exact LT'.
  - destruct (val k) eqn:V; [destruct w; apply IH; exact LT'|]. right. destruct w; eexists; eexists; (split; [reflexivity|exists k; exact V]).
Qed.
Lemma parse_args_total : forall val fuel q k p d o, (length p < fuel)%nat -> at_stop p -> exists r d' o', parse_args val fuel q k p d o = Ok (r, d', o') /\
  ((r = GOOD_LINE /\ exists l, args p l /\ apply_args q l d o = (d', o')) \/ (r = BAD_LINE /\ forall l, ~ args p l) \/ (r = PAM_BUF_ERR /\ exists j, val j = false)).
Proof.
  intro val. assert (T : forall fuel q k p d o, (length p < fuel)%nat -> at_stop p -> exists r d' o', parse_args val fuel q k p d o = Ok (r, d', o') /\
    ((r = GOOD_LINE /\ exists l, args p l) \/ r = BAD_LINE \/ (r = PAM_BUF_ERR /\ exists j, val j = false))).
  { induction fuel as [|n IH]; intros q k p d o LT AS; [lia|]. cbn [parse_args]. destruct (span (among blanks) p) as (sp, p1) eqn:S. apply span_app in S. destruct S as (E & F & N).
    destruct sp as [|c sp].
    { exists GOOD_LINE, d, o. split; [reflexivity|]. left. split; [reflexivity|]. exists []. cbn [app] in E. subst p1. destruct AS as [->|(c & t & -> & A)]; [constructor|].
      destruct N as [N|(c' & b' & E & N)]; [discriminate|]. injection E as <- <-. apply among_iff in A. apply among_false in N. destruct A as [A|[A|[<-|[]]]]; [destruct N; left; exact A|destruct N; right; left; exact A|constructor]. }
    match goal with |- context [match ?x with None => Ok (BAD_LINE, d, o) | Some _ => _ end] => destruct x as [(w, p2)|] eqn:K end; [|exists BAD_LINE, d, o; auto].
    apply key_prefix_some in K. destruct (value_at p2) as [((v, t), qd)|] eqn:V; [|exists BAD_LINE, d, o; auto]. apply value_at_some in V. destruct V as (x & W & -> & AT).
    assert (LT' : (length t < n)%nat) by (rewrite E, K in LT; rewrite !app_length in LT; cbn [length] in LT; destruct w; cbn in LT; lia).
    assert (GO : forall q k d1 o1, exists r d' o', parse_args val n q k t d1 o1 = Ok (r, d', o') /\ ((r = GOOD_LINE /\ exists l, args p l) \/ r = BAD_LINE \/ (r = PAM_BUF_ERR /\ exists j, val j = false))).
    { intros q1 k1 d1 o1. destruct (IH q1 k1 t d1 o1 LT' AT) as (r & d' & o' & P & D). exists r, d', o'. split; [exact P|]. destruct D as [(-> & l & A)|D]; [left; split; [reflexivity|]|right; exact D].
      exists ((w, qd, v) :: l). rewrite E, K. apply args_cons; [discriminate| |exact W|exact A]. intros y I. rewrite forallb_forall in F. apply among_iff, F, I. }
    destruct v as [|c0 v]; [destruct (if qd then S q else q) as [|q']; [apply GO|destruct w; apply GO]|]. destruct (val k) eqn:VK; [destruct w; apply GO|].
    destruct w; eexists; eexists; eexists; (split; [reflexivity|]); right; right; (split; [reflexivity|exists k; exact VK]). }
  intros fuel q k p d o LT AS. destruct (T fuel q k p d o LT AS) as (r & d' & o' & P & D). exists r, d', o'. split; [exact P|].
  destruct D as [(-> & l & A)|[->|D]]; [left|right; left|right; right; exact D].
  - split; [reflexivity|]. exists l. split; [exact A|]. destruct (parse_args_args val _ _ A fuel q k d o LT) as [X|(d1 & o1 & X & _)]; rewrite X in P; [injection P as <- <-; apply surjective_pairing|discriminate].
  - split; [reflexivity|]. intros l A. destruct (parse_args_args val _ _ A fuel q k d o LT) as [X|(d1 & o1 & X & _)]; rewrite X in P; discriminate.
Qed.

(** What the arguments mean: the last one that is not an empty word counts. *)
Definition given (l : list arg) (w : bool) (p : ptr) : Prop :=
  (exists a q v b, l = (a ++ (w, q, v) :: b)%list /\ (q = true \/ v <> []) /\ (forall q' v', In (w, q', v') b -> q' = false /\ v' = []) /\ p = match v with [] => Quote | _ => Str v end) \/
  ((forall q' v', In (w, q', v') l -> q' = false /\ v' = []) /\ p = Null).
(** No empty word stands after something that is quoted. *)
Definition no_stray (l : list arg) : Prop := forall a w b w' v', l = (a ++ (w, false, []) :: b)%list -> In (w', true, v') a -> v' = [].

Definition set_arg (w : bool) (p : ptr) (a : arg) : ptr :=
  let '(w', q, v) := a in if Bool.eqb w' w then match v with _ :: _ => Str v | [] => if q : bool then Quote else p end else p.
Lemma apply_set : forall l q d o, no_stray l -> ((0 < q)%nat -> forall w, ~ In (w, false, []) l) -> apply_args q l d o = (fold_left (set_arg false) l d, fold_left (set_arg true) l o).
Proof.
  induction l as [|((w, qd), v) l IH]; intros q d o NS Q; cbn [apply_args fold_left]; [reflexivity|].
  assert (NS' : no_stray l). { intros a w0 b w' v' E I. apply (NS ((w, qd, v) :: a) w0 b w' v'); [rewrite E; reflexivity|right; exact I]. }
  assert (QL : (0 < q)%nat -> forall w0, ~ In (w0, false, []) l) by (intros P w0 I; apply (Q P w0); right; exact I).
  destruct v as [|c v].
  - destruct qd.
    + destruct w; cbn [set_arg Bool.eqb]; apply IH; assumption.
    + destruct q as [|q]; [|exfalso; apply (Q ltac:(lia) w); left; reflexivity]. rewrite IH; [|exact NS'|intro X; lia]. destruct w; reflexivity.
  - assert (QN : (0 < (if qd then S q else q))%nat -> forall w0, ~ In (w0, false, []) l).
    { destruct qd; [|exact QL]. intros _ w0 I. apply in_split in I. destruct I as (a & b & E). assert (X : c :: v = []) by (apply (NS ((w, true, c :: v) :: a) w0 b w (c :: v)); [rewrite E; reflexivity|left; reflexivity]). discriminate X. }
    destruct w; cbn [set_arg Bool.eqb]; apply IH; assumption.
Qed.
Lemma set_given : forall l w, given l w (fold_left (set_arg w) l Null).
Proof.
  induction l as [|((w', q), v) l IH] using rev_ind; intro w; [right; split; [intros q' v' []|reflexivity]|]. rewrite fold_left_app. cbn [fold_left]. specialize (IH w).
  set (p := fold_left (set_arg w) l Null) in *. clearbody p.
  assert (KEEP : (w' = w -> q = false /\ v = []) -> given (l ++ [(w', q, v)]) w p).
  { intro K. destruct IH as [(a & q0 & v0 & b & -> & N & A & ->)|(A & ->)].
    - left. exists a, q0, v0, (b ++ [(w', q, v)])%list. split; [rewrite <- app_assoc; reflexivity|]. split; [exact N|]. split; [|reflexivity]. intros q' v' I. apply in_app_or in I. destruct I as [I|[I|[]]]; [apply A; exact I|]. injection I as -> <- <-. apply K. reflexivity.
    - right. split; [|reflexivity]. intros q' v' I. apply in_app_or in I. destruct I as [I|[I|[]]]; [apply A; exact I|]. injection I as -> <- <-. apply K. reflexivity. }
  assert (NEW : w' = w -> (q = true \/ v <> []) -> given (l ++ [(w', q, v)]) w (match v with [] => Quote | _ => Str v end)).
  { intros -> N. left. exists l, q, v, []. split; [reflexivity|]. split; [exact N|]. split; [intros q' v' []|reflexivity]. }
  unfold set_arg. destruct (Bool.eqb w' w) eqn:EW; [apply eqb_prop in EW|apply KEEP; intros ->; rewrite eqb_reflx in EW; discriminate].
  destruct v as [|c v]; [|apply NEW; [exact EW|right; discriminate]]. destruct q; [apply (NEW EW); left; reflexivity|apply KEEP; auto].
Qed.

(** ** The environment *)

Definition stored (P : cstr -> Prop) (env : option environ) : Prop := forall e s, env = Some e -> In (Some s) (elist e) -> P s.
Lemma in_upd : forall (A : Type) (l l' : list A) i x y, upd l i x = Some l' -> In y l' -> y = x \/ In y l.
Proof.
  intros A l. induction l as [|a l IH]; intros l' [|i] x y E I; cbn [upd] in E; try discriminate.
  - injection E as <-. destruct I as [<-|I]; [left; reflexivity|right; right; exact I].
  - destruct (upd l i x) as [l1|] eqn:U; [|discriminate]. injection E as <-. destruct I as [<-|I]; [right; left; reflexivity|]. destruct (IH _ _ _ _ U I) as [->|X]; [left; reflexivity|right; right; exact X].
Qed.
Lemma in_set_slot : forall l i x l' s, set_slot l i x = Ok l' -> In (Some s) l' -> x = Some s \/ In (Some s) l.
Proof. intros l i x l' s E I. unfold set_slot in E. destruct (upd l i x) as [l1|] eqn:U; [|discriminate]. injection E as <-. destruct (in_upd _ _ _ _ _ _ U I) as [X|X]; auto. Qed.
Lemma in_firstn : forall (A : Type) n (l : list A) x, In x (firstn n l) -> In x l.
Proof. intros A n l x I. rewrite <- (firstn_skipn n l). apply in_or_app. left. exact I. Qed.
Lemma in_skipn : forall (A : Type) n (l : list A) x, In x (skipn n l) -> In x l.
Proof. intros A n l x I. rewrite <- (firstn_skipn n l). apply in_or_app. right. exact I. Qed.
Lemma remove_clean : forall e i rv rv' e' s, remove_item e i rv = Ok (rv', e') -> In (Some s) (elist e') -> In (Some s) (elist e).
Proof.
  intros e i rv rv' e' s H I. unfold remove_item in H. destruct (set_slot (elist e) i None) as [l| |] eqn:S; cbn [bind] in H; try discriminate.
  match type of H with (if ?c then _ else _) = _ => destruct c end; [|discriminate]. injection H as <- <-. cbn [elist] in I.
  assert (J : In (Some s) l). { apply in_app_or in I. destruct I as [I|I]; [exact (in_firstn _ _ _ _ I)|]. apply in_app_or in I. destruct I as [I|I]; [exact (in_skipn _ _ _ _ (in_firstn _ _ _ _ I))|exact (in_skipn _ _ _ _ I)]. }
  destruct (in_set_slot _ _ _ _ _ S J) as [X|X]; [discriminate|exact X].
Qed.
Lemma put_stored : forall P oom1 oom2 env nv rv env', stored P env -> P nv -> putenv oom1 oom2 env (Some nv) = Ok (rv, env') -> stored P env'.
Proof.
  intros P oom1 oom2 env nv rv env' C N H. unfold putenv in H. destruct (len_to_eq nv =? 0)%nat; [injection H as _ <-; exact C|]. destruct env as [e|]; [|injection H as _ <-; exact C].
  assert (C0 : forall s, In (Some s) (elist e) -> P s) by (intros s I; exact (C e s eq_refl I)).
  destruct (search_env e nv (len_to_eq nv)) as [item| |]; cbn [bind] in H; try discriminate. destruct (char_at nv (len_to_eq nv)) as [c| |]; cbn [bind] in H; try discriminate.
  destruct (negb (Ascii.eqb c NUL)).
  - match type of H with bind ?x _ = _ => destruct x as [place| |] eqn:PL end; cbn [bind] in H; try discriminate. destruct place as [(i, e1)|]; [|injection H as _ <-; exact C].
    assert (C1 : forall s, In (Some s) (elist e1) -> P s).
    { destruct item as [j|].
      - destruct (set_slot (elist e) j None) as [l| |] eqn:S; cbn [bind] in PL; try discriminate. injection PL as <- <-. cbn [elist]. intros s I. destruct (in_set_slot _ _ _ _ _ S I) as [X|X]; [discriminate|exact (C0 s X)].
      - match type of PL with bind ?x _ = _ => destruct x as [g| |] eqn:G end; cbn [bind] in PL; try discriminate. destruct g as [e2|]; [|discriminate].
        assert (C2 : forall s, In (Some s) (elist e2) -> P s).
        { destruct (entries e <=? requested e)%nat; [|injection G as <-; exact C0]. destruct oom1; [discriminate|]. destruct (requested e <=? length (elist e))%nat; [|discriminate]. injection G as <-. cbn [elist]. intros s I.
          apply in_app_or in I. destruct I as [I|I]; [exact (C0 s (in_firstn _ _ _ _ I))|]. apply repeat_spec in I. discriminate. }
        destruct (set_slot (elist e2) (requested e2) None) as [l| |] eqn:S; cbn [bind] in PL; try discriminate. injection PL as <- <-. cbn [elist]. intros s I. destruct (in_set_slot _ _ _ _ _ S I) as [X|X]; [discriminate|exact (C2 s X)]. }
    destruct oom2.
    + destruct (remove_item e1 i PAM_BUF_ERR) as [(rv1, e3)| |] eqn:RM; cbn [bind] in H; try discriminate. injection H as <- <-. intros e4 s E I. injection E as <-. exact (C1 s (remove_clean _ _ _ _ _ _ RM I)).
    + destruct (set_slot (elist e1) i (Some nv)) as [l| |] eqn:S; cbn [bind] in H; try discriminate. injection H as <- <-. intros e4 s E I. injection E as <-. cbn [elist] in I. destruct (in_set_slot _ _ _ _ _ S I) as [X|X]; [injection X as <-; exact N|exact (C1 s X)].
  - destruct item as [i|]; [|injection H as _ <-; exact C]. destruct (remove_item e i PAM_SUCCESS) as [(rv1, e3)| |] eqn:RM; cbn [bind] in H; try discriminate. injection H as <- <-. intros e4 s E I. injection E as <-. exact (C0 s (remove_clean _ _ _ _ _ _ RM I)).
Qed.
Lemma lived_clean : forall env, lived env -> stored is_cstr env.
Proof.
  intros env H. induction H as [env H|env oom1 oom2 nv rv env' H IH N P]; [|exact (put_stored _ _ _ _ _ _ _ IH N P)].
  injection H as <-. intros e s E I. injection E as <-. cbn [elist] in I. assert (X : In (Some s) (repeat None 10)) by exact I. apply repeat_spec in X. discriminate.
Qed.
Lemma has_cstr : forall env n s, lived env -> has env n = Some s -> is_cstr s.
Proof.
  intros env n s L H. pose proof (lived_clean env L) as C. unfold has, getenv in H. destruct env as [e|]; [|discriminate]. destruct (search_env e n (length n)) as [[i|]| |]; cbn [bind] in H; try discriminate.
  unfold slot in H. destruct (nth_error (elist e) i) as [p|] eqn:NE; cbn [bind] in H; try discriminate. destruct p as [t|]; cbn [bind deref] in H; try discriminate. injection H as <-. apply nth_error_In in NE.
  intro I. apply (C e t eq_refl NE). apply (in_skipn _ (S (length n))). exact I.
Qed.
Lemma yields_cstr : forall var item s t ok, yields var item s t ok -> is_cstr s -> (forall n v, var n = Some v -> is_cstr v) -> (forall n v, item n = Some v -> is_cstr v) -> is_cstr t.
Proof.
  intros var item s t ok Y C V T. assert (AP : forall a b, is_cstr a -> is_cstr b -> is_cstr (a ++ b)) by (intros a b A B I; apply in_app_or in I; destruct I; [apply A|apply B]; assumption).
  induction Y as [|c s t ok N1 N2 N3 Y IH|c s t ok E Y IH|s t ok N Y IH|c s t ok E N Y IH|n s t ok N Y IH|n s t ok N Y IH|c s E N].
  - intros [].
  - intros [I|I]; [apply C; left; exact I|]. revert I. apply IH. intro I. apply C. right. exact I.
  - intros [I|I]; [apply C; right; left; exact I|]. revert I. apply IH. intro I. apply C. right. right. exact I.
  - apply IH. intro I. apply C. right. exact I.
  - intros [I|I]; [apply C; left; exact I|]. revert I. apply IH. intro I. apply C. right. exact I.
  - apply AP; [destruct (var n) as [v|] eqn:E; [exact (V _ _ E)|intros []]|]. apply IH. intro I. apply C. right. right. apply in_or_app. right. right. exact I.
  - apply AP; [destruct (item n) as [v|] eqn:E; [exact (T _ _ E)|intros []]|]. apply IH. intro I. apply C. right. right. apply in_or_app. right. right. exact I.
  - intros [].
Qed.
Lemma yields_unique : forall var item s t ok t' ok', yields var item s t ok -> yields var item s t' ok' -> t = t' /\ ok = ok'.
Proof.
  intros var item s t ok t' ok' Y. revert t' ok'.
  assert (SPL : forall a b c d, ~ In "}"%char a -> ~ In "}"%char c -> (a ++ "}"%char :: b)%list = (c ++ "}"%char :: d)%list -> a = c /\ b = d).
  { induction a as [|x a IH]; intros b [|y c] d A C E; cbn [app] in E; [injection E as ->; auto|destruct C; left; congruence|destruct A; left; congruence|]. injection E as E1 E2. destruct (IH b c d) as (-> & ->); [intro I; apply A; right; exact I|intro I; apply C; right; exact I|exact E2|]. split; congruence. }
  assert (NIN : forall a b (s : cstr), s = (a ++ "}"%char :: b)%list -> ~ In "}"%char s -> False) by (intros a b s0 E N; apply N; rewrite E; apply in_or_app; right; left; reflexivity).
  induction Y as [|c s t ok N1 N2 N3 Y IH|c s t ok E Y IH|s t ok N Y IH|c s t ok E N Y IH|n s t ok N Y IH|n s t ok N Y IH|c s E N]; intros t' ok' Y'; inversion Y'; subst;
    try (exfalso; tauto); try (split; congruence);
    try (match goal with H : yields _ _ ?s ?x ?y, IH : forall t' ok', yields _ _ ?s t' ok' -> _ |- _ => destruct (IH _ _ H) as (-> & ->); split; congruence end);
    try (exfalso; match goal with H : _ \/ _ |- _ => repeat (destruct H as [H|H]); discriminate end);
    try (exfalso; match goal with H : forall c s', ?x :: ?y = c :: s' -> _ |- _ => destruct (H x y eq_refl) as (X1 & X2 & X3); tauto end);
    try (exfalso; match goal with H : forall s', _ <> "{"%char :: s' |- _ => eapply H; reflexivity end);
    try (exfalso; match goal with H : ~ In "}"%char (_ ++ "}"%char :: _) |- _ => apply H; apply in_or_app; right; left; reflexivity end).
  all: try (match goal with H : (_ ++ "}"%char :: _)%list = (_ ++ "}"%char :: _)%list |- _ => apply SPL in H; [destruct H as (-> & ->)|assumption..] end; match goal with H : yields _ _ ?s ?x ?y, IH : forall t' ok', yields _ _ ?s t' ok' -> _ |- _ => destruct (IH _ _ H) as (-> & ->); split; congruence end).
  all: try (exfalso; repeat match goal with H : _ \/ _ |- _ => destruct H as [H|H] end; congruence).
Qed.

Definition small (s : cstr) : Prop := Z.of_nat (length s) <= SIZE_MAX.
Lemma has_small : forall env n s, stored small env -> has env n = Some s -> small s.
Proof.
  intros env n s C H. unfold has, getenv in H. destruct env as [e|]; [|discriminate]. destruct (search_env e n (length n)) as [[i|]| |]; cbn [bind] in H; try discriminate.
  unfold slot in H. destruct (nth_error (elist e) i) as [p|] eqn:NE; cbn [bind] in H; try discriminate. destruct p as [t|]; cbn [bind deref] in H; try discriminate. injection H as <-. apply nth_error_In in NE.
  specialize (C e t eq_refl NE). unfold small in *. change (match t with [] => [] | _ :: l => skipn (length n) l end) with (skipn (S (length n)) t). rewrite skipn_length. lia.
Qed.
Lemma yields_ext : forall var item item' s t ok, (forall n, item n = item' n) -> yields var item s t ok -> yields var item' s t ok.
Proof. intros var item item' s t ok E Y. induction Y; try (rewrite E); constructor; assumption. Qed.
Lemma yields_plain : forall var item s, existsb (among [c_bslash; "$"%char; "@"%char]) s = false -> yields var item s s true.
Proof.
  intros var item s. induction s as [|c s IH]; intro H; [constructor|]. cbn [existsb] in H. apply orb_false_iff in H. destruct H as (H1 & H2). assert (N : ~ (c = "\"%char \/ c = "$"%char \/ c = "@"%char)) by (intro X; apply special_iff in X; congruence).
  apply y_plain; [tauto..|]. apply IH. exact H2.
Qed.
Lemma args_sub : forall p l w q v, args p l -> In (w, q, v) l -> exists a b, p = (a ++ v ++ b)%list.
Proof.
  intros p l w q v A. induction A as [|t|sp w0 q0 v0 x t l NS B W A IH]; intro I; [destruct I|destruct I|]. destruct I as [I|I].
  - injection I as -> -> ->. destruct W as [v V N|v N]; [exists (sp ++ key w)%list, t; rewrite <- !app_assoc; reflexivity|]. exists (sp ++ key w ++ [c_dq])%list, ([c_dq] ++ t)%list. rewrite <- !app_assoc. cbn [app]. rewrite <- app_assoc. reflexivity.
  - destruct (IH I) as (a & b & ->). exists (sp ++ key w0 ++ x ++ a)%list, b. rewrite <- !app_assoc. reflexivity.
Qed.
Lemma given_in : forall l w s, given l w (Str s) -> exists q, In (w, q, s) l.
Proof.
  intros l w s [(a & q & v & b & -> & _ & _ & E)|(_ & E)]; [|discriminate]. exists q. destruct v as [|c v]; [discriminate|]. injection E as ->. apply in_or_app. right. left. reflexivity.
Qed.
