(** C71-C74: pam_env. *)
From Coq Require Import String Ascii List Arith ZArith Bool Lia.
From Verif Require Import Base Num_Model Str_Model Str_Facts Opt_Model Opt_Facts Line_Model Line_Spec Line_Proofs Line_Props Env_Model Env_Spec Env_Proofs Env_Props Pamenv_Model Pamenv_Facts.
From Verif Require Gate_Props Umask_Props Pwhist_Props.
Import ListNotations.
Local Open Scope Z_scope.

(** The items by name, as strings that fit into memory. *)
Definition names_items (I : items) (item : cstr -> option cstr) : Prop :=
  (forall n, item_is I n (item n)) /\ (forall n s, item n = Some s -> is_cstr s /\ small s).
Lemma names_byname : forall I item, names_items I item -> forall n, item_byname I n = item n.
Proof. intros I item (N & _) n. apply (item_is_unique I n); [apply item_byname_is|apply N]. Qed.

(** The value a text stands for is computed, without undefined behaviour, whatever the text and the environment are; it can only fail
    because a brace stays open or memory is short. *)
Theorem expand_meaning : forall grow dup env I item s, lived env -> stored small env -> names_items I item ->
  exists r v t ok, expand_arg grow dup env I s = Ok (r, v) /\ yields (has env) item s t ok /\
    ((r = PAM_SUCCESS /\ ok = true /\ v = t) \/ (r = PAM_ABORT /\ ok = false) \/
     (r = PAM_BUF_ERR /\ ((exists n, grow n = false) \/ dup = false \/ SIZE_MAX <= Z.of_nat (length t)))).
Proof.
  intros grow dup env I item s L ST NI. pose proof (names_byname _ _ NI) as NB. unfold expand_arg. destruct (existsb (among [c_bslash; "$"%char; "@"%char]) s) eqn:SP; cbn [negb].
  2:{ exists PAM_SUCCESS, s, s, true. split; [reflexivity|]. split; [apply yields_plain; exact SP|left; auto]. }
  assert (F : fits env I). { split; [intros n x H; exact (has_small _ _ _ ST H)|]. intros n x H. rewrite NB in H. apply NI in H. apply H. }
  destruct (expand_loop_yields grow env I L F (S (length s)) s 0 None (mkSbuf [] 0) ltac:(lia)) as (r & c & b & t & ok & E & Y & C & D); [left; auto|exact Logic.I|].
  rewrite E. cbn [bind]. apply (yields_ext _ _ item) in Y; [|exact NB]. destruct D as [(-> & -> & D)|[(-> & ->)|(-> & D)]].
  - cbn [b_str app] in D. replace (negb (PAM_SUCCESS =? PAM_SUCCESS)) with false by reflexivity. cbv iota zeta. destruct (Z.ltb_spec (match c with Some n => Z.of_nat n | None => Z.of_nat (length s) end) (b_len b)) as [H|H].
    + destruct dup; [exists PAM_SUCCESS, (b_str b), t, true; split; [reflexivity|]; split; [exact Y|left; auto]|]. exists PAM_BUF_ERR, s, t, true. split; [reflexivity|]. split; [exact Y|]. right. right. auto.
    + assert (B : b_len b <= Z.of_nat (length s)) by (destruct c; lia). destruct (Z.leb_spec (b_len b) (Z.of_nat (length s))); [|lia]. exists PAM_SUCCESS, (b_str b), t, true. split; [reflexivity|]. split; [exact Y|left; auto].
  - exists PAM_ABORT, s, t, false. split; [reflexivity|]. split; [exact Y|]. right. left. auto.
  - exists PAM_BUF_ERR, s, t, ok. split; [reflexivity|]. split; [exact Y|]. right. right. split; [reflexivity|]. destruct D as [D|D]; [left; exact D|right; right; exact D].
Qed.

(** ** Lines *)

(** [line]: the name and the arguments behind it. *)
Definition line_is (line name : cstr) (l : list arg) : Prop := exists rest, line = (name ++ rest)%list /\ (forall c, In c name -> ~ In c stops) /\ args rest l.

Lemma line_parsed : forall R line, exists r name d o, parse_line R line = Ok (r, name, d, o) /\
  ((r = GOOD_LINE /\ exists l, line_is line name l /\ apply_args 0 l Null Null = (d, o)) \/
   (r = BAD_LINE /\ forall n l, ~ line_is line n l) \/
   (r = PAM_BUF_ERR /\ (r_name R = false \/ exists k, r_val R k = false))).
Proof.
  intros R line. unfold parse_line. destruct (span (fun c => negb (among stops c)) line) as (name, p) eqn:S. apply span_app in S. destruct S as (E & F & T).
  assert (NM : forall c, In c name -> ~ In c stops) by (intros c I; rewrite forallb_forall in F; apply among_false, negb_true_iff, F, I).
  assert (AS : at_stop p) by (destruct T as [->|(c & t & -> & A)]; [left; reflexivity|right; exists c, t; apply negb_false_iff in A; auto]).
  destruct (r_name R) eqn:RN; cbn [negb]; [|exists PAM_BUF_ERR, [], Null, Null; split; [reflexivity|]; right; right; auto].
  destruct (parse_args_total (r_val R) (S (length p)) 0 0 p Null Null ltac:(lia) AS) as (r & d & o & P & D). rewrite P. cbn [bind]. exists r, name, d, o. split; [reflexivity|].
  destruct D as [(-> & l & A & AP)|[(-> & N)|(-> & V)]]; [left|right; left|right; right; auto].
  - split; [reflexivity|]. exists l. split; [exists p; auto|exact AP].
  - split; [reflexivity|]. intros n l (rest & E2 & NN & A). apply (N l). pose proof (span_stop n rest NN (args_stop _ _ A)) as X. rewrite <- E2, E in X. pose proof (span_stop name p NM AS) as Y. rewrite Y in X. injection X as _ X. rewrite X. exact A.
Qed.
(** A line is accepted exactly when it has the form above, and then means what its last arguments say. *)
Theorem line_meaning : forall R line, exists r name d o, parse_line R line = Ok (r, name, d, o) /\
  ((r = GOOD_LINE /\ exists l, line_is line name l /\ (no_stray l -> given l false d /\ given l true o)) \/
   (r = BAD_LINE /\ forall n l, ~ line_is line n l) \/
   (r = PAM_BUF_ERR /\ (r_name R = false \/ exists k, r_val R k = false))).
Proof.
  intros R line. destruct (line_parsed R line) as (r & name & d & o & P & D). exists r, name, d, o. split; [exact P|]. destruct D as [(-> & l & A & AP)|D]; [left|right; exact D].
  split; [reflexivity|]. exists l. split; [exact A|]. intro NS. rewrite (apply_set l 0 Null Null NS) in AP by (intro X; lia). injection AP as <- <-. split; apply set_given.
Qed.

(** ** What a line asks for *)

Inductive value_of (env : option environ) (item : cstr -> option cstr) : ptr -> option cstr -> Prop :=
| vo_null : value_of env item Null None
| vo_quote : value_of env item Quote (Some [])
| vo_str : forall s t, yields (has env) item s t true -> value_of env item (Str s) (Some t).
(** A brace in it stays open. *)
Definition dangling (env : option environ) (item : cstr -> option cstr) (p : ptr) : Prop := exists s t, p = Str s /\ yields (has env) item s t false.

Inductive request := Malformed | Unclosed | Put (nv : cstr).
(** [G l w p]: the arguments [l] give the member [w] the value [p]. *)
Inductive line_asks_by (G : list arg -> bool -> ptr -> Prop) (env : option environ) (item : cstr -> option cstr) (line : cstr) : request -> Prop :=
| la_bad : (forall n l, ~ line_is line n l) -> line_asks_by G env item line Malformed
| la_open : forall n l d o, line_is line n l -> G l false d -> G l true o -> dangling env item d \/ dangling env item o -> line_asks_by G env item line Unclosed
| la_override : forall n l d o dv v, line_is line n l -> G l false d -> G l true o -> value_of env item d dv -> value_of env item o (Some v) -> v <> [] ->
    line_asks_by G env item line (Put (n ++ c_eq :: v))
| la_default : forall n l d o v ov, line_is line n l -> G l false d -> G l true o -> value_of env item d (Some v) -> value_of env item o ov -> ov = None \/ ov = Some [] ->
    line_asks_by G env item line (Put (n ++ c_eq :: v))
| la_unset : forall n l d o ov, line_is line n l -> G l false d -> G l true o -> value_of env item d None -> value_of env item o ov -> ov = None \/ ov = Some [] ->
    line_asks_by G env item line (Put n).

Definition line_asks := line_asks_by given.

(** What pam_putenv then does, to all variables. *)
Definition effect (nomem : bool) (env : option environ) (nv : cstr) (r : Z) (env' : option environ) : Prop :=
  exists m m', (forall n, name_ok n -> getenv env (Some n) = Ok (m n)) /\ (forall n, name_ok n -> getenv env' (Some n) = Ok (m' n)) /\ put_effect nomem m nv r m'.
(** All memory that is asked for is there. *)
Definition ample (R : room) : Prop := r_name R = true /\ (forall k, r_val R k = true) /\ (forall n, r_grow R n = true) /\ (forall b, r_dup R b = true) /\ r_text R = true /\ r_put1 R = true /\ r_put2 R = true.
(** Memory is short, or the text is too long. *)
Definition short (R : room) (env : option environ) (item : cstr -> option cstr) (line : cstr) : Prop :=
  ~ ample R \/ exists a s b t ok, line = (a ++ s ++ b)%list /\ yields (has env) item s t ok /\ INT_MAX < Z.of_nat (length line + 1 + length t).
(** No line has an empty word behind something quoted. *)
Definition tidy (line : cstr) : Prop := forall n l, line_is line n l -> no_stray l.

Lemma putenv_effect : forall env oom1 oom2 nv, lived env -> stored small env -> is_cstr nv -> small nv ->
  exists r env', putenv oom1 oom2 env (Some nv) = Ok (r, env') /\ lived env' /\ stored small env' /\ effect (oom1 || oom2) env nv r env'.
Proof.
  intros env o1 o2 nv L ST C SM. destruct (putenv_is_a_map_update env o1 o2 nv L C) as (r & env' & m & m' & E & M & M' & P). exists r, env'. split; [exact E|].
  split; [exact (lived_put _ _ _ _ _ _ L C E)|]. split; [exact (put_stored _ _ _ _ _ _ _ ST SM E)|]. exists m, m'. auto.
Qed.
Lemma line_name : forall (G : list arg -> bool -> ptr -> Prop) line n l, (forall l w s, G l w (Str s) -> exists q, In (w, q, s) l) -> line_is line n l -> forall w s, G l w (Str s) -> exists a b, line = (a ++ s ++ b)%list /\ (length n + length s <= length line)%nat.
Proof.
  intros G line n l HS (rest & -> & _ & A) w s H. apply HS in H. destruct H as (q & I). destruct (args_sub _ _ _ _ _ A I) as (a & b & ->). exists (n ++ a)%list, b. split; [rewrite <- app_assoc; reflexivity|]. rewrite !app_length. lia.
Qed.

Lemma expand_ptr_meaning : forall grow dup env I item p, lived env -> stored small env -> names_items I item ->
  exists r p', expand_ptr grow dup env I p = Ok (r, p') /\
    ((r = PAM_SUCCESS /\ ((p = Null /\ p' = Null) \/ (p = Quote /\ p' = Quote) \/ exists s t, p = Str s /\ yields (has env) item s t true /\ p' = Str t)) \/
     (r = PAM_ABORT /\ dangling env item p) \/
     (r = PAM_BUF_ERR /\ exists s t ok, p = Str s /\ yields (has env) item s t ok /\ ((exists n, grow n = false) \/ dup = false \/ SIZE_MAX <= Z.of_nat (length t)))).
Proof.
  intros grow dup env I item p L ST NI. destruct p as [| |s]; cbn [expand_ptr]; [exists PAM_SUCCESS, Null; split; [reflexivity|]; left; auto|exists PAM_SUCCESS, Quote; split; [reflexivity|]; left; auto|].
  destruct (expand_meaning grow dup env I item s L ST NI) as (r & v & t & ok & E & Y & D). rewrite E. cbn [bind]. exists r, (Str v). split; [reflexivity|].
  destruct D as [(-> & -> & ->)|[(-> & ->)|(-> & D)]]; [left|right; left|right; right].
  - split; [reflexivity|]. right. right. exists s, t. auto.
  - split; [reflexivity|]. exists s, t. auto.
  - split; [reflexivity|]. exists s, t, ok. auto.
Qed.
Lemma conf_line_by : forall (G : list arg -> bool -> ptr -> Prop) R I item env line,
  (forall n l d o, line_is line n l -> apply_args 0 l Null Null = (d, o) -> G l false d /\ G l true o) ->
  (forall l w s, G l w (Str s) -> exists q, In (w, q, s) l) ->
  lived env -> stored small env -> names_items I item -> is_cstr line -> small line ->
  exists r env', conf_line R I env line = Ok (r, env') /\ lived env' /\ stored small env' /\
    ((r = BAD_LINE /\ env' = env /\ line_asks_by G env item line Malformed) \/ (r = PAM_ABORT /\ env' = env /\ line_asks_by G env item line Unclosed) \/
     (exists nv, line_asks_by G env item line (Put nv) /\ effect (negb (r_put1 R && r_put2 R)) env nv r env') \/
     (r = PAM_BUF_ERR /\ env' = env /\ short R env item line)).
Proof.
  intros G R I item env line HG HS L ST NI LC LS. unfold conf_line. destruct (line_parsed R line) as (r & name & d & o & P & D). rewrite P. cbn [bind].
  destruct D as [(-> & l & LI & AP)|[(-> & N)|(-> & B)]].
  2:{ exists BAD_LINE, env. split; [reflexivity|]. split; [exact L|]. split; [exact ST|]. left. split; [reflexivity|]. split; [reflexivity|]. apply la_bad. exact N. }
  2:{ exists PAM_BUF_ERR, env. split; [reflexivity|]. split; [exact L|]. split; [exact ST|]. right. right. right. split; [reflexivity|]. split; [reflexivity|]. left. intros (A1 & A2 & _). destruct B as [B|(k & B)]; [congruence|]. rewrite A2 in B. discriminate. }
  replace (negb (GOOD_LINE =? GOOD_LINE)) with false by reflexivity. cbv iota. destruct (HG _ _ _ _ LI AP) as (GD & GO). unfold check_var.
  assert (NC : is_cstr name). { destruct LI as (rest & -> & _). intro X. apply LC, in_or_app. left. exact X. }
  assert (NL : (length name <= length line)%nat). { destruct LI as (rest & -> & _). rewrite app_length. lia. }
  assert (SHORT : forall grow dup w p, G l w p -> (forall n, r_grow R n = grow n) -> r_dup R w = dup ->
    (exists s t ok, p = Str s /\ yields (has env) item s t ok /\ ((exists n, grow n = false) \/ dup = false \/ SIZE_MAX <= Z.of_nat (length t))) -> short R env item line).
  { intros grow dup w p GP EG ED (s & t & ok & -> & Y & [(n & H)|[H|H]]).
    - left. intros (_ & _ & A & _). rewrite <- EG, A in H. discriminate.
    - left. intros (_ & _ & _ & A & _). rewrite <- ED, A in H. discriminate.
    - right. destruct (line_name _ _ _ _ HS LI w s GP) as (a & b & E & _). exists a, s, b, t, ok. split; [exact E|]. split; [exact Y|]. change INT_MAX with 2147483647. change SIZE_MAX with 18446744073709551615 in H. lia. }
  assert (STOP : forall r0, r0 <> DEFINE_VAR -> r0 <> UNDEFINE_VAR -> (r0 = PAM_ABORT /\ line_asks_by G env item line Unclosed) \/ (r0 = PAM_BUF_ERR /\ short R env item line) ->
    exists r env', (if r0 =? DEFINE_VAR then define_var R env name Null else if r0 =? UNDEFINE_VAR then putenv (negb (r_put1 R)) (negb (r_put2 R)) env (Some name) else Ok (r0, env)) = Ok (r, env') /\ lived env' /\ stored small env' /\
    ((r = BAD_LINE /\ env' = env /\ line_asks_by G env item line Malformed) \/ (r = PAM_ABORT /\ env' = env /\ line_asks_by G env item line Unclosed) \/
     (exists nv, line_asks_by G env item line (Put nv) /\ effect (negb (r_put1 R && r_put2 R)) env nv r env') \/ (r = PAM_BUF_ERR /\ env' = env /\ short R env item line))).
  { intros r0 N1 N2 Q. apply Z.eqb_neq in N1, N2. rewrite N1, N2. exists r0, env. split; [reflexivity|]. split; [exact L|]. split; [exact ST|]. destruct Q as [(Q & A)|(Q & A)]; auto 8. }
  assert (ASK : forall r0 v w, (r0 = DEFINE_VAR /\ w = (name ++ c_eq :: match v with Str s => s | _ => [] end)%list) \/ (r0 = UNDEFINE_VAR /\ w = name) -> line_asks_by G env item line (Put w) ->
    (r0 = DEFINE_VAR -> is_cstr (match v with Str s => s | _ => [] end) /\ (v = Quote \/ exists u s, G l u (Str s) /\ exists t, v = Str t /\ yields (has env) item s t true)) ->
    exists r env', (if r0 =? DEFINE_VAR then define_var R env name v else if r0 =? UNDEFINE_VAR then putenv (negb (r_put1 R)) (negb (r_put2 R)) env (Some name) else Ok (r0, env)) = Ok (r, env') /\ lived env' /\ stored small env' /\
    ((r = BAD_LINE /\ env' = env /\ line_asks_by G env item line Malformed) \/ (r = PAM_ABORT /\ env' = env /\ line_asks_by G env item line Unclosed) \/
     (exists nv, line_asks_by G env item line (Put nv) /\ effect (negb (r_put1 R && r_put2 R)) env nv r env') \/ (r = PAM_BUF_ERR /\ env' = env /\ short R env item line))).
  { intros r0 v w [(-> & ->)|(-> & ->)] AK CV.
    - replace (DEFINE_VAR =? DEFINE_VAR) with true by reflexivity. cbv iota. unfold define_var. destruct (CV eq_refl) as (C & SRC). set (val := match v with Str s => s | _ => [] end) in *.
      destruct (r_text R) eqn:RT; cbn [negb orb].
      2:{ exists PAM_BUF_ERR, env. split; [reflexivity|]. split; [exact L|]. split; [exact ST|]. right. right. right. split; [reflexivity|]. split; [reflexivity|]. left. intros (_ & _ & _ & _ & A & _). congruence. }
      destruct (Z.ltb_spec INT_MAX (Z.of_nat (length name + 1 + length val))) as [H|H].
      { exists PAM_BUF_ERR, env. split; [reflexivity|]. split; [exact L|]. split; [exact ST|]. right. right. right. split; [reflexivity|]. split; [reflexivity|]. right.
        destruct SRC as [->|(u & s & GU & t & -> & Y)].
        - exists [], [], line, [], true. split; [reflexivity|]. split; [constructor|]. unfold val in H. cbn [length] in *. lia.
        - destruct (line_name _ _ _ _ HS LI u s GU) as (a & b & E & _). exists a, s, b, t, true. split; [exact E|]. split; [exact Y|]. unfold val in H. lia. }
      assert (CN : is_cstr (name ++ c_eq :: val)). { intro X. apply in_app_or in X. destruct X as [X|[X|X]]; [exact (NC X)|discriminate|exact (C X)]. }
      destruct (putenv_effect env (negb (r_put1 R)) (negb (r_put2 R)) (name ++ c_eq :: val)%list L ST CN) as (r & env' & E & L' & S' & EF).
      { unfold small. rewrite app_length. cbn [length]. change SIZE_MAX with 18446744073709551615. change INT_MAX with 2147483647 in H. lia. }
      exists r, env'. split; [exact E|]. split; [exact L'|]. split; [exact S'|]. right. right. left. exists (name ++ c_eq :: val)%list. split; [exact AK|]. rewrite negb_andb. exact EF.
    - replace (UNDEFINE_VAR =? DEFINE_VAR) with false by reflexivity. replace (UNDEFINE_VAR =? UNDEFINE_VAR) with true by reflexivity. cbv iota.
      destruct (putenv_effect env (negb (r_put1 R)) (negb (r_put2 R)) name L ST NC) as (r & env' & E & L' & S' & EF); [unfold small in *; lia|].
      exists r, env'. split; [exact E|]. split; [exact L'|]. split; [exact S'|]. right. right. left. exists name. split; [exact AK|]. rewrite negb_andb. exact EF. }
  assert (CS : forall w s t, G l w (Str s) -> yields (has env) item s t true -> is_cstr t).
  { intros w s t GS Y. apply (yields_cstr _ _ _ _ _ Y); [|intros n v; apply has_cstr; exact L|intros n v H; apply NI in H; apply H]. destruct (line_name _ _ _ _ HS LI w s GS) as (a & b & -> & _). intro X. apply LC, in_or_app. right. apply in_or_app. left. exact X. }
  destruct (expand_ptr_meaning (r_grow R) (r_dup R false) env I item d L ST NI) as (r1 & d' & E1 & D1). rewrite E1. cbn [bind].
  destruct D1 as [(-> & D1)|[(-> & D1)|(-> & D1)]].
  2:{ replace (negb (PAM_ABORT =? PAM_SUCCESS)) with true by reflexivity. cbv iota. cbn [bind]. apply STOP; [discriminate..|]. left. split; [reflexivity|]. apply (la_open _ _ _ _ name l d o); auto. }
  2:{ replace (negb (PAM_BUF_ERR =? PAM_SUCCESS)) with true by reflexivity. cbv iota. cbn [bind]. apply STOP; [discriminate..|]. right. split; [reflexivity|]. exact (SHORT (r_grow R) _ false d GD (fun n => eq_refl) eq_refl D1). }
  replace (negb (PAM_SUCCESS =? PAM_SUCCESS)) with false by reflexivity. cbv iota.
  destruct (expand_ptr_meaning (r_grow R) (r_dup R true) env I item o L ST NI) as (r2 & o' & E2 & D2). rewrite E2. cbn [bind].
  destruct D2 as [(-> & D2)|[(-> & D2)|(-> & D2)]].
  2:{ replace (negb (PAM_ABORT =? PAM_SUCCESS)) with true by reflexivity. cbv iota. cbn [bind]. apply STOP; [discriminate..|]. left. split; [reflexivity|]. apply (la_open _ _ _ _ name l d o); auto. }
  2:{ replace (negb (PAM_BUF_ERR =? PAM_SUCCESS)) with true by reflexivity. cbv iota. cbn [bind]. apply STOP; [discriminate..|]. right. split; [reflexivity|]. exact (SHORT (r_grow R) _ true o GO (fun n => eq_refl) eq_refl D2). }
  replace (negb (PAM_SUCCESS =? PAM_SUCCESS)) with false by reflexivity. cbv iota.
  assert (DV : exists dv, value_of env item d dv /\ ((dv = None /\ d' = Null) \/ exists v, dv = Some v /\ v = match d' with Str s => s | _ => [] end /\ d' <> Null /\ is_cstr v /\ (d' = Quote \/ exists u s, G l u (Str s) /\ exists t, d' = Str t /\ yields (has env) item s t true))).
  { destruct D1 as [(-> & ->)|[(-> & ->)|(s & t & -> & Y & ->)]].
    - exists None. split; [constructor|]. left; auto.
    - exists (Some []). split; [constructor|]. right. exists []. split; [reflexivity|]. split; [reflexivity|]. split; [discriminate|]. split; [intros []|auto].
    - exists (Some t). split; [constructor; exact Y|]. right. exists t. split; [reflexivity|]. split; [reflexivity|]. split; [discriminate|]. split; [exact (CS _ _ _ GD Y)|]. right. exists false, s. split; [exact GD|]. exists t. auto. }
  destruct DV as (dv & VD & DV).
  assert (FALL : forall ov, value_of env item o ov -> ov = None \/ ov = Some [] -> (match o' with Str (_ :: _) => Ok (DEFINE_VAR, o') | _ => match d' with Null => Ok (UNDEFINE_VAR, Null) | _ => Ok (DEFINE_VAR, d') end end) = (match d' with Null => Ok (UNDEFINE_VAR, Null) | _ => Ok (DEFINE_VAR, d') end) ->
    exists r env', bind (match o' with Str (_ :: _) => Ok (DEFINE_VAR, o') | _ => match d' with Null => Ok (UNDEFINE_VAR, Null) | _ => Ok (DEFINE_VAR, d') end end) (fun '(r0, v) => if r0 =? DEFINE_VAR then define_var R env name v else if r0 =? UNDEFINE_VAR then putenv (negb (r_put1 R)) (negb (r_put2 R)) env (Some name) else Ok (r0, env)) = Ok (r, env') /\ lived env' /\ stored small env' /\
    ((r = BAD_LINE /\ env' = env /\ line_asks_by G env item line Malformed) \/ (r = PAM_ABORT /\ env' = env /\ line_asks_by G env item line Unclosed) \/
     (exists nv, line_asks_by G env item line (Put nv) /\ effect (negb (r_put1 R && r_put2 R)) env nv r env') \/ (r = PAM_BUF_ERR /\ env' = env /\ short R env item line))).
  { intros ov VO NO EQ. rewrite EQ. destruct DV as [(-> & ->)|(v & -> & -> & ND & C & SRC)].
    - cbn [bind]. apply (ASK UNDEFINE_VAR Null name); [right; auto|apply (la_unset _ _ _ _ name l d o ov); assumption|discriminate].
    - assert (X : (match d' with Null => Ok (UNDEFINE_VAR, Null) | _ => Ok (DEFINE_VAR, d') end) = Ok (DEFINE_VAR, d')) by (destruct d'; [contradiction|reflexivity|reflexivity]). rewrite X. cbn [bind].
      apply (ASK DEFINE_VAR d' _ (or_introl (conj eq_refl eq_refl))); [apply (la_default _ _ _ _ name l d o _ ov); assumption|]. intros _. split; [exact C|exact SRC]. }
  destruct D2 as [(-> & ->)|[(-> & ->)|(s & t & -> & Y & ->)]]; [apply (FALL None); [constructor|auto|reflexivity]|apply (FALL (Some [])); [constructor|auto|reflexivity]|].
  destruct t as [|c t]; [apply (FALL (Some [])); [constructor; exact Y|auto|reflexivity]|]. cbn [bind].
  apply (ASK DEFINE_VAR (Str (c :: t)) _ (or_introl (conj eq_refl eq_refl))); [apply (la_override _ _ _ _ name l d (Str s) dv); [assumption..|constructor; exact Y|discriminate]|].
  intros _. split; [exact (CS _ _ _ GO Y)|]. right. exists true, s. split; [exact GO|]. exists (c :: t). auto.
Qed.
(** Without empty words behind quotes a line of the configuration file does what it asks for. *)
Theorem conf_line_meaning : forall R I item env line, lived env -> stored small env -> names_items I item -> is_cstr line -> small line -> tidy line ->
  exists r env', conf_line R I env line = Ok (r, env') /\ lived env' /\ stored small env' /\
    ((r = BAD_LINE /\ env' = env /\ line_asks env item line Malformed) \/ (r = PAM_ABORT /\ env' = env /\ line_asks env item line Unclosed) \/
     (exists nv, line_asks env item line (Put nv) /\ effect (negb (r_put1 R && r_put2 R)) env nv r env') \/
     (r = PAM_BUF_ERR /\ env' = env /\ short R env item line)).
Proof.
  intros R I item env line L ST NI LC LS TD. apply conf_line_by; try assumption; [|exact given_in]. intros n l d o LI AP. rewrite (apply_set l 0 Null Null (TD _ _ LI)) in AP by (intro X; lia). injection AP as <- <-. split; apply set_given.
Qed.

(** ** The configuration file *)

(** A line names a variable: its name stands before a blank, a newline, an equals sign or the end. *)
Definition names (line n : cstr) : Prop := exists rest, line = (n ++ rest)%list /\ (rest = [] \/ exists c t, rest = c :: t /\ (c = c_eq \/ In c stops)).

Definition loosely (l : list arg) (w : bool) (p : ptr) : Prop := forall s, p = Str s -> exists q, In (w, q, s) l.
Lemma apply_loosely : forall l q d o d' o', apply_args q l d o = (d', o') ->
  (forall s, d' = Str s -> d = Str s \/ exists q, In (false, q, s) l) /\ (forall s, o' = Str s -> o = Str s \/ exists q, In (true, q, s) l).
Proof.
  induction l as [|((w, qd), v) l IH]; intros q d o d' o' E; cbn [apply_args] in E; [injection E as <- <-; split; intros s H; auto|].
  assert (X : forall q1 d1 o1, apply_args q1 l d1 o1 = (d', o') -> (forall s, d1 = Str s -> d = Str s \/ (w = false /\ v = s)) -> (forall s, o1 = Str s -> o = Str s \/ (w = true /\ v = s)) ->
    (forall s, d' = Str s -> d = Str s \/ exists q, In (false, q, s) ((w, qd, v) :: l)) /\ (forall s, o' = Str s -> o = Str s \/ exists q, In (true, q, s) ((w, qd, v) :: l))).
  { intros q1 d1 o1 A K1 K2. destruct (IH _ _ _ _ _ A) as (I1 & I2). split; intros s H.
    - destruct (I1 s H) as [H1|(q0 & H1)]; [|right; exists q0; right; exact H1]. destruct (K1 s H1) as [H2|(-> & ->)]; [left; exact H2|right; exists qd; left; reflexivity].
    - destruct (I2 s H) as [H1|(q0 & H1)]; [|right; exists q0; right; exact H1]. destruct (K2 s H1) as [H2|(-> & ->)]; [left; exact H2|right; exists qd; left; reflexivity]. }
  destruct v as [|c v].
  - destruct (if qd then S q else q) as [|q']; [apply (X _ _ _ E); auto|]. destruct w; apply (X _ _ _ E); auto; intros s H; discriminate H.
  - destruct w; apply (X _ _ _ E); auto; intros s H; injection H as <-; auto.
Qed.
Lemma conf_line_any : forall R I item env line, lived env -> stored small env -> names_items I item -> is_cstr line -> small line ->
  exists r env', conf_line R I env line = Ok (r, env') /\ lived env' /\ stored small env' /\
    ((r = BAD_LINE /\ env' = env /\ line_asks_by loosely env item line Malformed) \/ (r = PAM_ABORT /\ env' = env /\ line_asks_by loosely env item line Unclosed) \/
     (exists nv, line_asks_by loosely env item line (Put nv) /\ effect (negb (r_put1 R && r_put2 R)) env nv r env') \/
     (r = PAM_BUF_ERR /\ env' = env /\ short R env item line)).
Proof.
  intros R I item env line L ST NI LC LS. apply conf_line_by; try assumption; [|intros l w s H; exact (H s eq_refl)]. intros n l d o LI AP. apply apply_loosely in AP. destruct AP as (A1 & A2).
  split; intros s H; [destruct (A1 s H) as [X|X]; [discriminate X|exact X]|destruct (A2 s H) as [X|X]; [discriminate X|exact X]].
Qed.
Lemma put_names : forall G env item line nv k w, line_asks_by G env item line (Put nv) -> asks nv (Some (k, w)) -> names line k.
Proof.
  assert (K1 : forall line n l, line_is line n l -> names line n).
  { intros line n l (rest & -> & _ & A). exists rest. split; [reflexivity|]. apply args_stop in A. destruct A as [->|(c & t & -> & A)]; [left; reflexivity|right]. exists c, t. split; [reflexivity|]. right. apply among_iff. exact A. }
  assert (K2 : forall line n l k v, line_is line n l -> n = (k ++ c_eq :: v)%list -> names line k).
  { intros line n l k v (rest & -> & _) ->. exists (c_eq :: v ++ rest)%list. split; [rewrite <- app_assoc; reflexivity|right]. exists c_eq, (v ++ rest)%list. auto. }
  assert (K3 : forall n (v k : cstr) v' a, ~ In c_eq k -> (k ++ c_eq :: v')%list = (n ++ c_eq :: v)%list -> a = n -> k = a \/ exists u, a = (k ++ c_eq :: u)%list).
  { intros n v k v' a NK E ->. revert k NK E. induction n as [|c n IH]; intros k NK E.
    - destruct k as [|x k]; [left; reflexivity|]. cbn [app] in E. injection E as -> _. destruct NK. left. reflexivity.
    - destruct k as [|x k]; cbn [app] in E; [injection E as <- _; right; exists n; reflexivity|]. injection E as -> E. destruct (IH k) as [->|(u & ->)]; [intro X; apply NK; right; exact X|exact E|left; reflexivity|right; exists u; reflexivity]. }
  assert (K4 : forall line n l v k w, line_is line n l -> asks (n ++ c_eq :: v) (Some (k, w)) -> names line k).
  { intros line n l v k w LI A. inversion A as [k' v' (_ & NK) E1|k' (_ & NK) E1| |]; subst.
    - destruct (K3 n v k v' n NK E1 eq_refl) as [->|(u & E)]; [exact (K1 _ _ _ LI)|exact (K2 _ _ _ _ _ LI E)].
    - destruct NK. apply in_or_app. right. left. reflexivity. }
  intros G env item line nv k w LA A. inversion LA as [| |n l d o dv v LI E2 E3 E4 E5 E6 EN|n l d o v ov LI E2 E3 E4 E5 E6 EN|n l d o ov LI E2 E3 E4 E5 E6 EN]; subst; [exact (K4 _ _ _ _ _ _ LI A)|exact (K4 _ _ _ _ _ _ LI A)|].
  inversion A as [k' v' (_ & NK) E1|k' (_ & NK) E1| |]; subst; [exact (K2 _ _ _ _ _ LI eq_refl)|exact (K1 _ _ _ LI)].
Qed.
Lemma effect_frame : forall nomem env nv r env' k, effect nomem env nv r env' -> name_ok k -> (forall w, ~ asks nv (Some (k, w))) -> getenv env' (Some k) = getenv env (Some k).
Proof.
  intros nomem env nv r env' k (m & m' & M & M' & P) NK NA. rewrite M', M by exact NK. f_equal. destruct P as [m' A H|n v m' A H S|n m' A H1 H2 S|n m' A H1 H|n v m' _ A H S]; try apply H; apply S; intros ->; exact (NA _ A).
Qed.
Lemma conf_lines_frame : forall rooms I item ls, names_items I item -> Forall is_cstr ls -> Forall small ls -> forall k last env, lived env -> stored small env ->
  exists r env', conf_lines rooms I k ls last env = Ok (r, env') /\ lived env' /\ stored small env' /\
    forall n, name_ok n -> (forall l, In l ls -> ~ names l n) -> getenv env' (Some n) = getenv env (Some n).
Proof.
  intros rooms I item ls NI. induction ls as [|l ls IH]; intros FC FS k last env L ST; cbn [conf_lines]; [exists last, env; auto|].
  inversion FC as [|? ? C1 C2]; subst. inversion FS as [|? ? S1 S2]; subst. destruct (conf_line_any (rooms k) I item env l L ST NI C1 S1) as (r & env1 & E & L1 & ST1 & D). rewrite E. cbn [bind].
  assert (FR : forall n, name_ok n -> ~ names l n -> getenv env1 (Some n) = getenv env (Some n)).
  { intros n NK NN. destruct D as [(_ & -> & _)|[(_ & -> & _)|[(nv & LA & EF)|(_ & -> & _)]]]; try reflexivity. apply (effect_frame _ _ _ _ _ _ EF NK). intros w A. exact (NN (put_names _ _ _ _ _ _ _ LA A)). }
  destruct (negb (r =? PAM_SUCCESS) && negb (r =? BAD_LINE) && negb (r =? PAM_BAD_ITEM)).
  - exists r, env1. split; [reflexivity|]. split; [exact L1|]. split; [exact ST1|]. intros n NK NN. apply FR; [exact NK|]. apply NN. left. reflexivity.
  - destruct (IH C2 S2 (S k) r env1 L1 ST1) as (r2 & env2 & E2 & L2 & ST2 & F2). exists r2, env2. split; [exact E2|]. split; [exact L2|]. split; [exact ST2|]. intros n NK NN. rewrite F2; [apply FR; [exact NK|apply NN; left; reflexivity]|exact NK|intros x X; apply NN; right; exact X].
Qed.
Lemma read_lines : forall content ls ok, ~ In NUL content -> logical [] (split_lines content) ls ok -> read_file true (Some content) = (PAM_SUCCESS, ls) /\ Forall is_cstr ls.
Proof.
  intros content ls ok N H. change [] with (added NUL) in H at 1. apply (lines_follow_the_rules NUL content ls ok) in H; [|split; discriminate|exact N]. cbn [read_file]. rewrite H. split; [reflexivity|].
  unfold file_lines in H. revert H. generalize (S (length (split_lines content))). generalize (split_lines content). intros f n. revert f ls ok. induction n as [|n IH]; intros f ls ok H; cbn [all_lines_fuel] in H; [injection H as <- _; constructor|].
  destruct (assemble NUL f None false) as [|s rest|] eqn:A; [injection H as <- _; constructor| |injection H as <- _; constructor]. destruct (all_lines_fuel n NUL rest) as (ls', ok') eqn:E. injection H as <- _. constructor; [exact (proj2 (delivered_lines_are_strings _ _ _ _ A))|exact (IH _ _ _ E)].
Qed.

(** Reading a configuration file is defined whatever it contains, and changes only variables that one of its lines names, even when memory
    runs out. *)
Theorem conf_changes_only_named : forall mem rooms I item content ls ok env, lived env -> stored small env -> names_items I item -> ~ In NUL content ->
  logical [] (split_lines content) ls ok -> Forall small ls ->
  exists r env', parse_config_file mem rooms I (Some content) env = Ok (r, env') /\ lived env' /\ stored small env' /\
    (r = PAM_SUCCESS \/ r = PAM_ABORT \/ (r = PAM_BUF_ERR /\ mem = false)) /\
    forall n, name_ok n -> (forall l, In l ls -> ~ names l n) -> getenv env' (Some n) = getenv env (Some n).
Proof.
  intros mem rooms I item content ls ok env L ST NI NN LG FS. destruct (read_lines _ _ _ NN LG) as (RF & FC). unfold parse_config_file. destruct mem.
  - rewrite RF. replace (negb (PAM_SUCCESS =? PAM_SUCCESS)) with false by reflexivity. cbv iota. destruct (conf_lines_frame rooms I item ls NI FC FS 0 PAM_SUCCESS env L ST) as (r & env' & E & L' & ST' & F). rewrite E. cbn [bind].
    eexists; eexists; split; [reflexivity|]. split; [exact L'|]. split; [exact ST'|]. split; [destruct (negb (r =? 0)); auto|exact F].
  - cbn [read_file]. exists PAM_BUF_ERR, env. split; [reflexivity|]. split; [exact L|]. split; [exact ST|]. split; [auto|reflexivity].
Qed.

Lemma asks_unique : forall nv x y, asks nv (Some x) -> asks nv (Some y) -> x = y.
Proof.
  assert (K : forall (n k v w : cstr), ~ In c_eq n -> ~ In c_eq k -> (n ++ c_eq :: v)%list = (k ++ c_eq :: w)%list -> n = k /\ v = w).
  { induction n as [|c n IH]; intros [|x k] v w N1 N2 E; cbn [app] in E; [injection E as E; auto|injection E as <- _; destruct N2; left; reflexivity|injection E as -> _; destruct N1; left; reflexivity|].
    injection E as -> E. destruct (IH k v w) as (-> & ->); [intro X; apply N1; right; exact X|intro X; apply N2; right; exact X|exact E|auto]. }
  intros nv x y A B. inversion A as [n v (_ & N1) E1|n (_ & N1) E1| |]; subst; inversion B as [k w (_ & N2) E2|k (_ & N2) E2| |]; subst.
  - destruct (K _ _ _ _ N2 N1 E2) as (-> & ->). reflexivity.
  - destruct N2. apply in_or_app. right. left. reflexivity.
  - destruct N1. apply in_or_app. right. left. reflexivity.
  - reflexivity.
Qed.
Lemma conf_lines_split : forall rooms I a b k last env env', conf_lines rooms I k (a ++ b) last env = Ok (PAM_SUCCESS, env') ->
  exists last1 env1, conf_lines rooms I k a last env = Ok (last1, env1) /\ conf_lines rooms I (k + length a) b last1 env1 = Ok (PAM_SUCCESS, env').
Proof.
  intros rooms I a b. induction a as [|l a IH]; intros k last env env' E; cbn [app] in E; [exists last, env; rewrite Nat.add_0_r; auto|]. cbn [conf_lines length] in *.
  destruct (conf_line (rooms k) I env l) as [(r, env1)| |]; cbn [bind] in *; try discriminate. destruct (negb (r =? PAM_SUCCESS) && negb (r =? BAD_LINE) && negb (r =? PAM_BAD_ITEM)) eqn:T.
  - injection E as -> _. cbn in T. discriminate T.
  - replace (k + S (length a))%nat with (S k + length a)%nat by lia. exact (IH _ _ _ _ E).
Qed.
(** When the result is PAM_SUCCESS, a variable has the value that the last line naming it asks for, in the environment of that moment. *)
Theorem conf_last_line_counts : forall mem rooms I item content a l b ok env env' n al, lived env -> stored small env -> names_items I item -> ~ In NUL content ->
  logical [] (split_lines content) (a ++ l :: b) ok -> Forall small (a ++ l :: b) -> tidy l -> line_is l n al -> name_ok n -> (forall x, In x b -> ~ names x n) ->
  parse_config_file mem rooms I (Some content) env = Ok (PAM_SUCCESS, env') ->
  exists env1, lived env1 /\ (forall k, name_ok k -> (forall x, In x a -> ~ names x k) -> getenv env1 (Some k) = getenv env (Some k)) /\
    ((exists v, line_asks env1 item l (Put (n ++ c_eq :: v)) /\ getenv env' (Some n) = Ok (Some v)) \/
     (line_asks env1 item l (Put n) /\ getenv env' (Some n) = Ok None)).
Proof.
  intros mem rooms I item content a l b ok env env' n al L ST NI NN LG FS TD LI NK NB E. destruct (read_lines _ _ _ NN LG) as (RF & FC). unfold parse_config_file in E. destruct mem; [|discriminate E].
  rewrite RF in E. replace (negb (PAM_SUCCESS =? PAM_SUCCESS)) with false in E by reflexivity. cbv iota in E.
  destruct (conf_lines rooms I 0 (a ++ l :: b) PAM_SUCCESS env) as [(r0, env0)| |] eqn:CL; cbn [bind] in E; try discriminate. assert (X : r0 = PAM_SUCCESS /\ env0 = env').
  { destruct (Z.eqb_spec r0 0) as [->|]; cbn [negb] in E; [injection E as <-; auto|discriminate E]. } destruct X as (-> & ->). clear E.
  apply conf_lines_split in CL. destruct CL as (last1 & env1 & C1 & C2). apply Forall_app in FS, FC. destruct FS as (FS1 & FS2), FC as (FC1 & FC2). inversion FS2 as [|? ? S1 S2]; subst. inversion FC2 as [|? ? D1 D2]; subst.
  destruct (conf_lines_frame rooms I item a NI FC1 FS1 0 PAM_SUCCESS env L ST) as (r1 & e1 & X & L1 & ST1 & F1). rewrite C1 in X. injection X as <- <-.
  cbn [conf_lines] in C2. destruct (conf_line_meaning (rooms (0 + length a)%nat) I item env1 l L1 ST1 NI D1 S1 TD) as (r2 & env2 & E2 & L2 & ST2 & D). rewrite E2 in C2. cbn [bind] in C2.
  destruct (negb (r2 =? PAM_SUCCESS) && negb (r2 =? BAD_LINE) && negb (r2 =? PAM_BAD_ITEM)) eqn:T; [injection C2 as -> _; discriminate T|].
  destruct (conf_lines_frame rooms I item b NI D2 S2 (S (0 + length a)) r2 env2 L2 ST2) as (r3 & e3 & X & L3 & ST3 & F3). rewrite C2 in X. injection X as <- <-.
  exists env1. split; [exact L1|]. split; [exact F1|]. rewrite (F3 n NK NB).
  assert (UN : forall n2 l2, line_is l n2 l2 -> n2 = n).
  { intros n2 l2 (rest2 & E & NN2 & A2). destruct LI as (rest & E' & NN1 & A1). pose proof (span_stop n rest NN1 (args_stop _ _ A1)) as P1. pose proof (span_stop n2 rest2 NN2 (args_stop _ _ A2)) as P2. rewrite <- E' in P1. rewrite <- E in P2. rewrite P1 in P2. injection P2 as <- _. reflexivity. }
  destruct D as [(-> & _ & LA)|[(-> & _ & _)|[(nv & LA & (m & m' & M & M' & P))|(-> & _ & _)]]].
  - inversion LA as [N| | | |]; subst. destruct (N _ _ LI).
  - discriminate T.
  - rewrite (M' n NK).
    assert (SET : forall v, nv = (n ++ c_eq :: v)%list -> m' n = Some v).
    { intros v ->. assert (AK : asks (n ++ c_eq :: v) (Some (n, Some v))) by (constructor; exact NK). destruct P as [m' A H|k v' m' A H S|k m' A H1 H2 S|k m' A H1 H|k v' m' _ A H S]; [destruct (asks_none_some _ _ _ A AK)| | | |discriminate T].
      - assert (Y : (k, Some v') = (n, Some v)) by exact (asks_unique _ _ _ A AK). injection Y as -> ->. exact H.
      - assert (Y : (k, None) = (n, Some v)) by exact (asks_unique _ _ _ A AK). discriminate Y.
      - assert (Y : (k, None) = (n, Some v)) by exact (asks_unique _ _ _ A AK). discriminate Y. }
    assert (DEL : nv = n -> m' n = None).
    { intros ->. assert (AK : asks n (Some (n, None))) by (constructor; exact NK). destruct P as [m' A H|k v' m' A H S|k m' A H1 H2 S|k m' A H1 H|k v' m' _ A H S]; [destruct (asks_none_some _ _ _ A AK)| | | |discriminate T].
      - assert (Y : (k, Some v') = (n, None)) by exact (asks_unique _ _ _ A AK). discriminate Y.
      - assert (Y : (k, @None cstr) = (n, None)) by exact (asks_unique _ _ _ A AK). injection Y as ->. exact H2.
      - assert (Y : (k, @None cstr) = (n, None)) by exact (asks_unique _ _ _ A AK). injection Y as ->. rewrite H. exact H1. }
    pose proof LA as LA'. inversion LA as [| |n2 l2 d o dv v LI2 X2 X3 X4 X5 X6 EN|n2 l2 d o v ov LI2 X2 X3 X4 X5 X6 EN|n2 l2 d o ov LI2 X2 X3 X4 X5 X6 EN]; pose proof (UN _ _ LI2); subst.
    + left. exists v. split; [exact LA'|]. f_equal. exact (SET v eq_refl).
    + left. exists v. split; [exact LA'|]. f_equal. exact (SET v eq_refl).
    + right. split; [exact LA'|]. f_equal. exact (DEL eq_refl).
  - discriminate T.
Qed.

Lemma args_unique : forall p l l', args p l -> args p l' -> l = l'.
Proof.
  intros p l l' A. revert l'. induction A as [|t|sp w q v x t l NS B W A IH]; intros l' A'.
  - inversion A' as [|t|sp w q v x t l0 NS B W A0 E]; [reflexivity|]. destruct sp; [congruence|discriminate].
  - inversion A' as [|t0|sp w q v x t0 l0 NS B W A0 E]; [reflexivity|]. destruct sp as [|c sp]; [congruence|]. injection E as -> _. specialize (B c_nl (or_introl eq_refl)). cbn in B. destruct B as [B|[B|[]]]; discriminate B.
  - inversion A' as [E|t0 E|sp1 w1 q1 v1 x1 t1 l1 NS1 B1 W1 A1 E]; subst.
    + destruct sp; [contradiction|discriminate].
    + destruct sp as [|c sp]; [contradiction|]. injection E as <- _. specialize (B c_nl (or_introl eq_refl)). cbn in B. destruct B as [B|[B|[]]]; discriminate B.
    + pose proof (span_key sp w (x ++ t) B) as P. pose proof (span_key sp1 w1 (x1 ++ t1) B1) as P1. rewrite E in P1. rewrite P1 in P. injection P as <- E2. 
      pose proof (key_prefix w (x ++ t)) as K. pose proof (key_prefix w1 (x1 ++ t1)) as K1. rewrite E2 in K1. rewrite K1 in K. injection K as <- E3.
      pose proof (value_at_written _ _ _ _ W (args_stop _ _ A)) as V. pose proof (value_at_written _ _ _ _ W1 (args_stop _ _ A1)) as V1. rewrite E3 in V1. rewrite V1 in V. injection V as -> -> ->. f_equal. apply IH. exact A1.
Qed.
Lemma given_set : forall l w p, given l w p -> p = fold_left (set_arg w) l Null.
Proof.
  assert (KEEP : forall b w p, (forall q' v', In (w, q', v') b -> q' = false /\ v' = []) -> fold_left (set_arg w) b p = p).
  { induction b as [|((w', q), v) b IH]; intros w p H; [reflexivity|]. cbn [fold_left]. rewrite IH by (intros q' v' I; apply H; right; exact I). cbn [set_arg]. destruct (Bool.eqb w' w) eqn:E; [|reflexivity]. apply eqb_prop in E. subst w'. destruct (H q v (or_introl eq_refl)) as (-> & ->). reflexivity. }
  intros l w p [(a & q & v & b & -> & N & H & ->)|(H & ->)]; [|symmetry; apply KEEP; exact H].
  rewrite fold_left_app. cbn [fold_left]. rewrite (KEEP b w _ H). cbn [set_arg]. rewrite eqb_reflx. destruct v; [destruct N as [->|N]; [reflexivity|contradiction]|reflexivity].
Qed.
Lemma line_unique : forall line n l n' l', line_is line n l -> line_is line n' l' -> n = n' /\ l = l'.
Proof.
  intros line n l n' l' (r & E & N & A) (r' & E' & N' & A'). pose proof (span_stop n r N (args_stop _ _ A)) as P. pose proof (span_stop n' r' N' (args_stop _ _ A')) as P'. rewrite <- E in P. rewrite <- E' in P'. rewrite P in P'. injection P' as -> ->. split; [reflexivity|]. exact (args_unique _ _ _ A A').
Qed.
Lemma value_unique : forall env item p v v', value_of env item p v -> value_of env item p v' -> v = v'.
Proof. intros env item p v v' A B. destruct A as [| |s t Y]; inversion B as [| |s' t' Y']; subst; try reflexivity. f_equal. exact (proj1 (yields_unique _ _ _ _ _ _ _ Y Y')). Qed.
Lemma value_closed : forall env item p v, value_of env item p v -> dangling env item p -> False.
Proof. intros env item p v A (s & t & -> & Y). inversion A as [| |s' t' Y']; subst. destruct (yields_unique _ _ _ _ _ _ _ Y Y') as (_ & X). discriminate X. Qed.

Lemma yields_total : forall var item s, exists t ok, yields var item s t ok.
Proof.
  intros var item s. remember (length s) as n eqn:E. revert s E. induction n as [n IH] using lt_wf_ind. intros s ->. destruct s as [|c s]; [exists [], true; constructor|].
  assert (GO : forall r, (length r < length (c :: s))%nat -> exists t ok, yields var item r t ok) by (intros r H; apply (IH (length r) H r eq_refl)).
  destruct (ascii_dec c "\"%char) as [->|N1].
  { destruct s as [|x s].
    - exists [], true. apply y_dropped; [discriminate|constructor].
    - destruct (among [c_bslash; "$"%char; "@"%char] x) eqn:AX.
      + destruct (GO s) as (t & ok & Y); [cbn [length]; lia|]. exists (x :: t), ok. apply y_escaped; [apply special_iff; exact AX|exact Y].
      + destruct (GO (x :: s)) as (t & ok & Y); [cbn [length]; lia|]. exists t, ok. apply y_dropped; [|exact Y]. intros d s' E. injection E as <- _. assert (X : ~ (x = "\"%char \/ x = "$"%char \/ x = "@"%char)) by (intro X; apply special_iff in X; congruence). tauto. }
  destruct (GO s) as (t & ok & Y); [cbn [length]; lia|].
  assert (SP : {c = "$"%char \/ c = "@"%char} + {c <> "$"%char /\ c <> "@"%char}) by (destruct (ascii_dec c "$"%char); [auto|destruct (ascii_dec c "@"%char); auto]).
  destruct SP as [SP|(N2 & N3)]; [|exists (c :: t), ok; apply y_plain; assumption].
  destruct s as [|x s]; [exists (c :: t), ok; apply y_alone; [exact SP|discriminate|exact Y]|]. destruct (ascii_dec x "{"%char) as [->|NX]; [|exists (c :: t), ok; apply y_alone; [exact SP|congruence|exact Y]].
  destruct (split_at "}"%char s) as [(name, rest)|] eqn:SA.
  - apply split_at_some in SA. destruct SA as (-> & NN). destruct (GO rest) as (t1 & ok1 & Y1); [cbn [length]; rewrite app_length; cbn [length]; lia|]. destruct SP as [->| ->]; eexists; exists ok1; [apply y_var|apply y_item]; eassumption.
  - apply split_at_none in SA. exists [], false. apply y_open; assumption.
Qed.
(** A line asks for exactly one thing. *)
Theorem line_asks_one : forall env item line, exists q, line_asks env item line q /\ forall q', line_asks env item line q' -> q' = q.
Proof.
  intros env item line.
  assert (T : exists q, line_asks env item line q).
  { destruct (line_meaning (mkRoom true (fun _ => true) (fun _ => true) (fun _ => true) true true true) line) as (r & name & d0 & o0 & _ & [(_ & l & LI & _)|[(_ & N)|(_ & [X|(k & X)])]]); [|exists Malformed; apply la_bad; exact N|discriminate X|discriminate X].
    pose proof (set_given l false) as GD. pose proof (set_given l true) as GO. set (d := fold_left (set_arg false) l Null) in *. set (o := fold_left (set_arg true) l Null) in *. clearbody d o.
    assert (V : forall p, dangling env item p \/ exists v, value_of env item p v).
    { intros [| |s]; [right; exists None; constructor|right; exists (Some []); constructor|]. destruct (yields_total (has env) item s) as (t & [|] & Y); [right; exists (Some t); constructor; exact Y|left; exists s, t; auto]. }
    destruct (V d) as [D|(dv & D)]; [exists Unclosed; apply (la_open _ _ _ _ name l d o); auto|]. destruct (V o) as [O|(ov & O)]; [exists Unclosed; apply (la_open _ _ _ _ name l d o); auto|].
    assert (K : ov = None \/ ov = Some [] \/ exists c v, ov = Some (c :: v)) by (destruct ov as [[|c v]|]; eauto). destruct K as [K|[K|(c & v & ->)]].
    - destruct dv as [v|]; eexists; [eapply (la_default _ _ _ _ name l d o v ov); auto|eapply (la_unset _ _ _ _ name l d o ov); auto].
    - destruct dv as [v|]; eexists; [eapply (la_default _ _ _ _ name l d o v ov); auto|eapply (la_unset _ _ _ _ name l d o ov); auto].
    - eexists. apply (la_override _ _ _ _ name l d o dv (c :: v)); try assumption. discriminate. }
  destruct T as (q & Q). exists q. split; [exact Q|]. intros q' Q'.
  assert (SAME : forall n l d o n' l' d' o', line_is line n l -> given l false d -> given l true o -> line_is line n' l' -> given l' false d' -> given l' true o' -> n' = n /\ d' = d /\ o' = o).
  { intros n l d o n' l' d' o' A B C A' B' C'. destruct (line_unique _ _ _ _ _ A A') as (-> & ->). apply given_set in B, C, B', C'. subst. auto. }
  destruct Q as [N|n l d o A B C DG|n l d o dv v A B C VD VO NV|n l d o v ov A B C VD VO NO|n l d o ov A B C VD VO NO];
  destruct Q' as [N'|n' l' d' o' A' B' C' DG'|n' l' d' o' dv' v' A' B' C' VD' VO' NV'|n' l' d' o' v' ov' A' B' C' VD' VO' NO'|n' l' d' o' ov' A' B' C' VD' VO' NO'];
  try reflexivity; try (destruct (N _ _ A'); fail); try (destruct (N' _ _ A); fail); destruct (SAME _ _ _ _ _ _ _ _ A B C A' B' C') as (-> & -> & ->);
  try (exfalso; destruct DG as [DG|DG]; (eapply value_closed; [|exact DG]; eassumption)); try (exfalso; destruct DG' as [DG'|DG']; (eapply value_closed; [|exact DG']; eassumption));
  try (reflexivity);
  pose proof (value_unique _ _ _ _ _ VD VD') as ED; pose proof (value_unique _ _ _ _ _ VO VO') as EO; try discriminate ED; try (injection ED as <-; reflexivity);
  try (injection EO as <-; reflexivity).
  all: try (rewrite <- EO in NO'; destruct NO' as [X|X]; try discriminate X; injection X as X; contradiction).
  all: try (rewrite EO in NO; destruct NO as [X|X]; try discriminate X; injection X as X; contradiction).
Qed.

Lemma asks_is : forall env item line q q', line_asks env item line q -> line_asks env item line q' -> q = q'.
Proof. intros env item line q q' A B. destruct (line_asks_one env item line) as (q0 & _ & U). rewrite (U _ A), (U _ B). reflexivity. Qed.

(** With memory, and every line asking for some variable to be set in every environment that fits, the result is PAM_SUCCESS. *)
Theorem conf_of_settings_succeeds : forall rooms I item content ls ok env, lived env -> stored small env -> names_items I item -> ~ In NUL content ->
  logical [] (split_lines content) ls ok -> Forall small ls -> (forall k, ample (rooms k)) ->
  (forall l, In l ls -> tidy l /\ forall env1, lived env1 -> stored small env1 ->
     (exists n v, name_ok n /\ line_asks env1 item l (Put (n ++ c_eq :: v))) /\ forall R, ample R -> ~ short R env1 item l) ->
  exists env', parse_config_file true rooms I (Some content) env = Ok (PAM_SUCCESS, env').
Proof.
  intros rooms I item content ls ok env L ST NI NN LG FS AM H. destruct (read_lines _ _ _ NN LG) as (RF & FC). unfold parse_config_file. rewrite RF. replace (negb (PAM_SUCCESS =? PAM_SUCCESS)) with false by reflexivity. cbv iota.
  assert (K : forall k env, lived env -> stored small env -> exists env', conf_lines rooms I k ls PAM_SUCCESS env = Ok (PAM_SUCCESS, env')); [|destruct (K 0%nat env L ST) as (env' & E); rewrite E; cbn [bind]; exists env'; reflexivity].
  clear RF LG env L ST. induction ls as [|l ls IH]; intros k env L ST; cbn [conf_lines]; [eauto|]. inversion FC as [|? ? C1 C2]; subst. inversion FS as [|? ? S1 S2]; subst.
  destruct (H l (or_introl eq_refl)) as (TD & HL). destruct (HL env L ST) as ((n & v & NK & LA) & NS). destruct (conf_line_meaning (rooms k) I item env l L ST NI C1 S1 TD) as (r & env1 & E & L1 & ST1 & D). rewrite E. cbn [bind].
  assert (R0 : r = PAM_SUCCESS).
  { destruct D as [(_ & _ & B)|[(_ & _ & B)|[(nv & B & (m & m' & M & M' & P))|(_ & _ & B)]]]; [discriminate (asks_is _ _ _ _ _ LA B)|discriminate (asks_is _ _ _ _ _ LA B)| |destruct (NS _ (AM k) B)].
    pose proof (asks_is _ _ _ _ _ LA B) as X. injection X as <-. destruct (AM k) as (_ & _ & _ & _ & _ & P1 & P2). rewrite P1, P2 in P. cbn in P. assert (AK : asks (n ++ c_eq :: v) (Some (n, Some v))) by (constructor; exact NK).
    destruct P as [m' A _|k0 v' m' A _ _|k0 m' A _ _ _|k0 m' A _ _|k0 v' m' X _ _ _]; [destruct (asks_none_some _ _ _ A AK)|reflexivity|reflexivity| |discriminate X]. pose proof (asks_unique _ _ _ A AK) as Y. discriminate Y. }
  subst r. replace (negb (PAM_SUCCESS =? PAM_SUCCESS) && negb (PAM_SUCCESS =? BAD_LINE) && negb (PAM_SUCCESS =? PAM_BAD_ITEM)) with false by reflexivity. apply IH; try assumption. intros x X. apply H. right. exact X.
Qed.
(** When the last line of the file is malformed, the whole file counts as a failure; the variables of the lines before are set all the same. *)
Theorem malformed_last_line_aborts : forall rooms I item content a l ok env, lived env -> stored small env -> names_items I item -> ~ In NUL content ->
  logical [] (split_lines content) (a ++ [l]) ok -> Forall small (a ++ [l]) -> (forall n al, ~ line_is l n al) ->
  exists env', parse_config_file true rooms I (Some content) env = Ok (PAM_ABORT, env').
Proof.
  intros rooms I item content a l ok env L ST NI NN LG FS BAD. destruct (conf_changes_only_named true rooms I item content _ _ env L ST NI NN LG FS) as (r & env' & E & _ & _ & [->|[->|(_ & X)]] & _); [|eauto|discriminate X].
  exfalso. destruct (read_lines _ _ _ NN LG) as (RF & FC). unfold parse_config_file in E. rewrite RF in E. replace (negb (PAM_SUCCESS =? PAM_SUCCESS)) with false in E by reflexivity. cbv iota in E.
  destruct (conf_lines rooms I 0 (a ++ [l]) PAM_SUCCESS env) as [(r0, env0)| |] eqn:CL; cbn [bind] in E; try discriminate. assert (X : r0 = PAM_SUCCESS) by (destruct (Z.eqb_spec r0 0) as [->|]; [reflexivity|discriminate E]). subst r0.
  apply conf_lines_split in CL. destruct CL as (last1 & env1 & C1 & C2). cbn [conf_lines] in C2. unfold conf_line in C2. destruct (line_meaning (rooms (0 + length a)%nat) l) as (r1 & nm & d & o & P & [(_ & l1 & LI & _)|[(-> & _)|(-> & _)]]); [destruct (BAD _ _ LI)| |]; rewrite P in C2; discriminate C2.
Qed.

(** ** The environment file *)

Definition quote (c : ascii) : Prop := c = c_dq \/ c = c_sq.
Definition word (n : cstr) : Prop := n <> [] /\ forall c, In c n -> isalnum c = true \/ c = "_"%char.
(** A value without the quotes around it: the first one, of either kind, and one at the end, of either kind. *)
Inductive bare : cstr -> cstr -> Prop :=
| b_plain : forall v, (forall c r, v = c :: r -> ~ quote c) -> bare v v
| b_closed : forall q w q', quote q -> quote q' -> bare (q :: w ++ [q']) w
| b_open : forall q w, quote q -> (forall a c, w = a ++ [c] -> ~ quote c)%list -> bare (q :: w) w.
(** What counts in a line: from the first character that is no white space, without "export ", up to a newline or '#'. *)
Definition env_body (line kv : cstr) : Prop := exists ws body ex tail, line = (ws ++ body)%list /\ (forall c, In c ws -> In c [c_space; c_nl; c_tab]) /\
  (forall c r, body = c :: r -> ~ In c [c_space; c_nl; c_tab; c_hash]) /\ body = (ex ++ kv ++ tail)%list /\ (ex = lit "export " \/ ex = [] /\ forall r, body <> (lit "export " ++ r)%list) /\
  (forall c, In c kv -> ~ In c [c_nl; c_hash]) /\ (tail = [] \/ exists c r, tail = c :: r /\ In c [c_nl; c_hash]).
Inductive env_request := Nothing | Assign (n v : cstr) | Remove (n : cstr).
Inductive env_asks (line : cstr) : env_request -> Prop :=
| ea_comment : forall ws r, line = (ws ++ c_hash :: r)%list -> (forall c, In c ws -> In c [c_space; c_nl; c_tab]) -> env_asks line Nothing
| ea_assign : forall n raw v, env_body line (n ++ c_eq :: raw) -> word n -> bare raw v -> env_asks line (Assign n v)
| ea_remove : forall n, env_body line n -> word n -> env_asks line (Remove n)
| ea_none : forall kv, env_body line kv -> (forall n raw, word n -> kv <> n ++ c_eq :: raw)%list -> ~ word kv -> env_asks line Nothing.

Definition wch (c : ascii) : bool := isalnum c || Ascii.eqb c "_"%char.
Lemma wch_iff : forall c, wch c = true <-> isalnum c = true \/ c = "_"%char.
Proof. intro c. unfold wch. rewrite orb_true_iff, Ascii.eqb_eq. reflexivity. Qed.
Lemma wch_eq : forall c, wch c = true -> c <> c_eq.
Proof. intros c H ->. discriminate H. Qed.
Lemma word_ok : forall n, word n -> name_ok n.
Proof. intros n (N & W). split; [exact N|]. intro I. apply W in I. apply wch_iff in I. discriminate I. Qed.
Lemma word_span : forall n t, (forall c, In c n -> isalnum c = true \/ c = "_"%char) -> (t = [] \/ exists c r, t = c :: r /\ wch c = false) -> span wch (n ++ t) = (n, t).
Proof. intros n t W T. apply span_spec; [apply forallb_forall; intros c I; apply wch_iff, W, I|]. destruct T as [->|(c & r & -> & H)]; [left; reflexivity|right; exists c, r; auto]. Qed.
Lemma quote_iff : forall c, Ascii.eqb c c_dq || Ascii.eqb c c_sq = true <-> quote c.
Proof. intro c. unfold quote. rewrite orb_true_iff, !Ascii.eqb_eq. reflexivity. Qed.
Lemma unquote_bare : forall q w, quote q -> bare (q :: w) (unquote w).
Proof.
  intros q w Q. assert (K : (exists a c, w = (a ++ [c])%list /\ quote c /\ unquote w = a) \/ ((forall a c, w = a ++ [c] -> ~ quote c)%list /\ unquote w = w)).
  { induction w as [|c w IH]; [right; split; [intros [|x a] y E; discriminate E|reflexivity]|]. cbn [unquote]. destruct w as [|d w].
    - destruct (Ascii.eqb c c_dq || Ascii.eqb c c_sq) eqn:E; [left; exists [], c; split; [reflexivity|]; split; [apply quote_iff; exact E|reflexivity]|]. right. split; [|reflexivity]. intros [|x a] y EQ; [injection EQ as <-; rewrite <- quote_iff; congruence|destruct a; discriminate EQ].
    - destruct IH as [(a & x & E & X & U)|(N & U)]; [left; exists (c :: a), x; rewrite E in *; split; [reflexivity|]; split; [exact X|rewrite U; reflexivity]|]. right. split; [|rewrite U; reflexivity].
      intros [|x a] y EQ; [discriminate EQ|]. injection EQ as _ EQ. apply (N a y EQ). }
  destruct K as [(a & c & -> & C & U)|(N & U)]; rewrite U; [apply b_closed|apply b_open]; assumption.
Qed.
Lemma bare_unique : forall r v v', bare r v -> bare r v' -> v = v'.
Proof.
  assert (K : forall r v, bare r v -> v = match r with [] => [] | q :: w => if Ascii.eqb q c_dq || Ascii.eqb q c_sq then unquote w else r end).
  { intros r v B. destruct B as [v N|q w q' Q Q'|q w Q N].
    - destruct v as [|c v]; [reflexivity|]. destruct (Ascii.eqb c c_dq || Ascii.eqb c c_sq) eqn:E; [|reflexivity]. apply quote_iff in E. destruct (N c v eq_refl E).
    - apply quote_iff in Q. rewrite Q. clear q Q. induction w as [|c w IH]; cbn [app unquote]; [apply quote_iff in Q'; rewrite Q'; reflexivity|]. destruct (w ++ [q'])%list eqn:E; [destruct w; discriminate E|]. f_equal. exact IH.
    - apply quote_iff in Q. rewrite Q. clear q Q. induction w as [|c w IH]; cbn [unquote]; [reflexivity|]. destruct w as [|d w].
      + destruct (Ascii.eqb c c_dq || Ascii.eqb c c_sq) eqn:E; [|reflexivity]. apply quote_iff in E. destruct (N [] c eq_refl E).
      + f_equal. apply IH. intros a x E. apply (N (c :: a)). rewrite E. reflexivity. }
  intros r v v' A B. rewrite (K _ _ A), (K _ _ B). reflexivity.
Qed.

Definition kv_of (key : cstr) : cstr := fst (span (fun c => negb (among [c_nl; c_hash] c)) (match skip_prefix (lit "export ") key with Some k => k | None => key end)).
Lemma text_body : forall line key, env_text line = Some key -> env_body line (kv_of key).
Proof.
  intros line key H. unfold env_text in H. destruct (span (among [c_space; c_nl; c_tab]) line) as (ws, body) eqn:S. cbn [snd] in H. apply span_app in S. destruct S as (E & F & T).
  assert (X : key = body /\ forall r, body <> c_hash :: r). { destruct body as [|c b]; [injection H as <-; split; [reflexivity|discriminate]|]. destruct (Ascii.eqb_spec c c_hash) as [->|N]; [discriminate|]. injection H as <-. split; [reflexivity|congruence]. }
  destruct X as (-> & NH). unfold kv_of. exists ws, body.
  assert (B : forall c r, body = c :: r -> ~ In c [c_space; c_nl; c_tab; c_hash]).
  { intros c r EB. destruct T as [->|(d & b & -> & A)]; [discriminate EB|]. injection EB as -> ->. apply among_false in A. intros [X|[X|[X|[X|[]]]]]; [apply A; left; exact X|apply A; right; left; exact X|apply A; right; right; left; exact X|subst c; exact (NH r eq_refl)]. }
  assert (W : forall c, In c ws -> In c [c_space; c_nl; c_tab]) by (intros c I; rewrite forallb_forall in F; apply among_iff, F, I).
  assert (G : forall ex k, body = (ex ++ k)%list -> (ex = lit "export " \/ ex = [] /\ forall r, body <> (lit "export " ++ r)%list) -> exists ex tail, line = (ws ++ body)%list /\ (forall c, In c ws -> In c [c_space; c_nl; c_tab]) /\
    (forall c r, body = c :: r -> ~ In c [c_space; c_nl; c_tab; c_hash]) /\ body = (ex ++ fst (span (fun c => negb (among [c_nl; c_hash] c)) k) ++ tail)%list /\ (ex = lit "export " \/ ex = [] /\ forall r, body <> (lit "export " ++ r)%list) /\
    (forall c, In c (fst (span (fun c => negb (among [c_nl; c_hash] c)) k)) -> ~ In c [c_nl; c_hash]) /\ (tail = [] \/ exists c r, tail = c :: r /\ In c [c_nl; c_hash])).
  { intros ex k EB EX. destruct (span (fun c => negb (among [c_nl; c_hash] c)) k) as (kv, tail) eqn:S. apply span_app in S. destruct S as (-> & FK & TK). cbn [fst]. exists ex, tail. split; [exact E|]. split; [exact W|]. split; [exact B|]. split; [exact EB|]. split; [exact EX|].
    split; [intros c I; rewrite forallb_forall in FK; apply among_false, negb_true_iff, FK, I|]. destruct TK as [->|(c & r & -> & A)]; [left; reflexivity|right; exists c, r; split; [reflexivity|]; apply among_iff, negb_false_iff, A]. }
  destruct (skip_prefix (lit "export ") body) as [k|] eqn:SP.
  - apply skip_prefix_some in SP. exact (G (lit "export ") k SP (or_introl eq_refl)).
  - apply (G [] body eq_refl). right. split; [reflexivity|]. intros r E2. rewrite E2, skip_prefix_app in SP. discriminate SP.
Qed.
Lemma body_kv : forall line kv, env_body line kv -> exists key, env_text line = Some key /\ kv = kv_of key.
Proof.
  intros line kv (ws & body & ex & tail & -> & W & B & EB & EX & K & T). exists body.
  assert (S : span (among [c_space; c_nl; c_tab]) (ws ++ body) = (ws, body)).
  { apply span_spec; [apply forallb_forall; intros c I; apply among_iff, W, I|]. destruct body as [|c b]; [left; reflexivity|right]. exists c, b. split; [reflexivity|]. apply among_false. intros I. apply (B c b eq_refl). cbn [In] in *. intuition. }
  split.
  - unfold env_text. rewrite S. cbn [snd]. destruct body as [|c b]; [reflexivity|]. destruct (Ascii.eqb_spec c c_hash) as [->|_]; [|reflexivity]. destruct (B c_hash b eq_refl). cbn [In]. auto.
  - unfold kv_of. assert (SK : span (fun c => negb (among [c_nl; c_hash] c)) (kv ++ tail) = (kv, tail)).
    { apply span_spec; [apply forallb_forall; intros c I; apply negb_true_iff, among_false, K, I|]. destruct T as [->|(c & r & -> & I)]; [left; reflexivity|right]. exists c, r. split; [reflexivity|]. apply negb_false_iff, among_iff, I. }
    destruct EX as [->|(-> & N)]; [rewrite EB, skip_prefix_app, SK; reflexivity|]. cbn [app] in EB. destruct (skip_prefix (lit "export ") body) as [k|] eqn:SP; [apply skip_prefix_some in SP; destruct (N _ SP)|]. rewrite EB, SK. reflexivity.
Qed.
Lemma comment_text : forall line, env_text line = None <-> exists ws r, line = (ws ++ c_hash :: r)%list /\ forall c, In c ws -> In c [c_space; c_nl; c_tab].
Proof.
  intro line. unfold env_text. split.
  - destruct (span (among [c_space; c_nl; c_tab]) line) as (ws, body) eqn:S. cbn [snd]. apply span_app in S. destruct S as (E & F & T). destruct body as [|c b]; [discriminate|]. destruct (Ascii.eqb_spec c c_hash) as [->|_]; [|discriminate]. intros _. exists ws, b. split; [exact E|]. intros c I. rewrite forallb_forall in F. apply among_iff, F, I.
  - intros (ws & r & -> & W). assert (S : span (among [c_space; c_nl; c_tab]) (ws ++ c_hash :: r) = (ws, c_hash :: r)) by (apply span_spec; [apply forallb_forall; intros c I; apply among_iff, W, I|right; exists c_hash, r; auto]). rewrite S. reflexivity.
Qed.
(** What [env_key] gives, in terms of the text that counts. *)
Lemma key_cases : forall key, (exists n raw v, kv_of key = (n ++ c_eq :: raw)%list /\ word n /\ bare raw v /\ env_key key = Some (n ++ c_eq :: v)%list) \/
  (word (kv_of key) /\ env_key key = Some (kv_of key)) \/ (kv_of key = [] /\ env_key key = Some []) \/
  ((forall n raw, word n -> kv_of key <> n ++ c_eq :: raw)%list /\ ~ word (kv_of key) /\ env_key key = None).
Proof.
  intro key. unfold env_key. fold (kv_of key). set (kv := kv_of key). clearbody kv. change (fun c => isalnum c || Ascii.eqb c "_"%char) with wch. destruct kv as [|c kv]; [right; right; left; auto|].
  destruct (Ascii.eqb_spec c c_eq) as [->|NC].
  { right. right. right. split; [|split; [|reflexivity]]; [intros [|x n] raw (N & W) E; [contradiction|]; injection E as <- _; destruct (W c_eq (or_introl eq_refl)) as [X|X]; discriminate X|]. intros (_ & W). destruct (W c_eq (or_introl eq_refl)) as [X|X]; discriminate X. }
  destruct (span wch (c :: kv)) as (n, rest) eqn:S. apply span_app in S. destruct S as (E & F & T). assert (W : forall c, In c n -> isalnum c = true \/ c = "_"%char) by (intros x I; rewrite forallb_forall in F; apply wch_iff, F, I).
  assert (NN : (exists r, rest = c_eq :: r) -> n <> []). { intros (r & ->) ->. cbn [app] in E. injection E as -> _. contradiction. }
  destruct rest as [|e r]; [right; left; rewrite E, app_nil_r; split; [split; [intros ->; discriminate E|exact W]|reflexivity]|].
  destruct (Ascii.eqb_spec e c_eq) as [->|NE]; cbn [negb].
  - left. assert (WN : word n) by (split; [apply NN; eauto|exact W]). exists n, r. destruct r as [|x w]; [exists []; split; [exact E|]; split; [exact WN|]; split; [apply b_plain; discriminate|rewrite E; reflexivity]|].
    destruct (Ascii.eqb x c_dq || Ascii.eqb x c_sq) eqn:Q; [apply quote_iff in Q; exists (unquote w); split; [exact E|]; split; [exact WN|]; split; [apply unquote_bare; exact Q|reflexivity]|].
    exists (x :: w). split; [exact E|]. split; [exact WN|]. split; [apply b_plain; intros y s EQ; injection EQ as <- _; rewrite <- quote_iff; congruence|rewrite E; reflexivity].
  - right. right. right. assert (NW : wch e = false) by (destruct T as [X|(x & b & X & A)]; [discriminate X|injection X as -> _; exact A]).
    assert (SP : span wch (n ++ e :: r) = (n, e :: r)) by (apply word_span; [exact W|right; exists e, r; auto]). split; [|split; [|reflexivity]].
    + intros n' raw (N' & W') E'. rewrite E in E'. rewrite E' in SP. rewrite (word_span n' (c_eq :: raw)) in SP; [injection SP as _ X _; congruence|exact W'|right; exists c_eq, raw; auto].
    + intros (N' & W'). rewrite E in W'. assert (X : wch e = true) by (apply wch_iff, W', in_or_app; right; left; reflexivity). congruence.
Qed.

(** A line of the environment file asks for exactly one thing. *)
Theorem env_line_asks_one : forall line, exists q, env_asks line q /\ forall q', env_asks line q' -> q' = q.
Proof.
  assert (K : forall line kv kv', env_body line kv -> env_body line kv' -> kv = kv'). { intros line kv kv' A B. destruct (body_kv _ _ A) as (k & E & ->). destruct (body_kv _ _ B) as (k' & E' & ->). rewrite E in E'. injection E' as <-. reflexivity. }
  assert (C : forall line kv ws r, env_body line kv -> line = (ws ++ c_hash :: r)%list -> (forall c, In c ws -> In c [c_space; c_nl; c_tab]) -> False).
  { intros line kv ws r A E W. destruct (body_kv _ _ A) as (k & E' & _). assert (X : env_text line = None) by (apply comment_text; eauto). congruence. }
  intro line. assert (T : exists q, env_asks line q).
  { destruct (env_text line) as [key|] eqn:ET; [|apply comment_text in ET; destruct ET as (ws & r & E & W); exists Nothing; exact (ea_comment _ _ _ E W)]. pose proof (text_body _ _ ET) as B.
    destruct (key_cases key) as [(n & raw & v & E & W & BR & _)|[(W & _)|[(E & _)|(N & W & _)]]]; [exists (Assign n v); rewrite E in B; exact (ea_assign _ _ _ _ B W BR)|exists (Remove (kv_of key)); exact (ea_remove _ _ B W)| |exists Nothing; exact (ea_none _ _ B N W)].
    exists Nothing. rewrite E in B. apply (ea_none _ _ B); [intros [|x n] raw (X & _); [contradiction|discriminate]|intros (X & _); contradiction]. }
  destruct T as (q & Q). exists q. split; [exact Q|]. intros q' Q'.
  destruct Q as [ws r E W|n raw v B W BR|n B W|kv B N NW]; destruct Q' as [ws' r' E' W'|n' raw' v' B' W' BR'|n' B' W'|kv' B' N' NW']; try reflexivity; try (destruct (C _ _ _ _ B' E W); fail); try (destruct (C _ _ _ _ B E' W'); fail); pose proof (K _ _ _ B B') as EQ.
  - destruct (split_eq_unique _ _ _ _ (proj2 (word_ok _ W)) (proj2 (word_ok _ W')) EQ) as (-> & ->). rewrite (bare_unique _ _ _ BR BR'). reflexivity.
  - subst n'. exfalso. apply (proj2 (word_ok _ W')). apply in_or_app. right. left. reflexivity.
  - destruct (N' _ _ W (eq_sym EQ)).
  - subst n. exfalso. apply (proj2 (word_ok _ W)). apply in_or_app. right. left. reflexivity.
  - subst n'. reflexivity.
  - subst kv'. contradiction.
  - destruct (N _ _ W' EQ).
  - subst kv. contradiction.
Qed.

Lemma getenv_nothing : forall env, lived env -> getenv env (Some []) = Ok None.
Proof.
  intros env L. destruct (lived_stores env L) as (e & al & -> & HS). unfold getenv. pose proof (search_key e al [] 0 HS (le_n _) (fun X => X)) as K. cbn [firstn length] in *.
  destruct (search_env e [] 0) as [[j|]| |]; [|reflexivity|destruct K|destruct K]. destruct K as (v & EJ). destruct HS as (_ & _ & _ & F & _). rewrite Forall_forall in F. apply nth_error_In in EJ. destruct (F _ EJ) as (X & _). contradiction.
Qed.
Lemma existsb_eq : forall n v, existsb (fun c => Ascii.eqb c c_eq) (n ++ c_eq :: v) = true.
Proof. intros n v. apply existsb_exists. exists c_eq. split; [apply in_or_app; right; left; reflexivity|apply Ascii.eqb_refl]. Qed.
Lemma existsb_word : forall n, word n -> existsb (fun c => Ascii.eqb c c_eq) n = false.
Proof. intros n W. destruct (existsb (fun c => Ascii.eqb c c_eq) n) eqn:E; [|reflexivity]. apply existsb_exists in E. destruct E as (c & I & E). apply Ascii.eqb_eq in E. subst c. destruct (proj2 (word_ok _ W) I). Qed.
Lemma body_sub : forall line kv, env_body line kv -> exists a b, line = (a ++ kv ++ b)%list.
Proof. intros line kv (ws & body & ex & tail & -> & _ & _ & -> & _). exists (ws ++ ex)%list, tail. rewrite <- app_assoc. reflexivity. Qed.
Lemma bare_sub : forall r v, bare r v -> exists a b, r = (a ++ v ++ b)%list.
Proof. intros r v [w _|q w q' _ _|q w _ _]; [exists [], []; rewrite app_nil_r; reflexivity|exists [q], [q']; reflexivity|exists [q], []; rewrite app_nil_r; reflexivity]. Qed.
Lemma sub_cstr : forall l a v b, is_cstr l -> l = (a ++ v ++ b)%list -> is_cstr v.
Proof. intros l a v b C -> I. apply C, in_or_app. right. apply in_or_app. left. exact I. Qed.

(** A line of the environment file does what it asks for; a variable that is not there is not removed. *)
Theorem env_line_meaning : forall R env line, lived env -> stored small env -> is_cstr line -> small line ->
  exists r env' q, env_line R env line = Ok (r, env') /\ lived env' /\ stored small env' /\ env_asks line q /\
    match q with
    | Nothing => r = PAM_SUCCESS /\ env' = env
    | Assign n v => effect (negb (r_put1 R && r_put2 R)) env (n ++ c_eq :: v) r env'
    | Remove n => (getenv env (Some n) = Ok None -> r = PAM_SUCCESS /\ env' = env) /\ (getenv env (Some n) <> Ok None -> effect (negb (r_put1 R && r_put2 R)) env n r env')
    end.
Proof.
  intros R env line L ST LC LS. unfold env_line. destruct (env_text line) as [key|] eqn:ET.
  2:{ apply comment_text in ET. destruct ET as (ws & r & E & W). exists PAM_SUCCESS, env, Nothing. split; [reflexivity|]. split; [exact L|]. split; [exact ST|]. split; [exact (ea_comment _ _ _ E W)|auto]. }
  pose proof (text_body _ _ ET) as B. destruct (key_cases key) as [(n & raw & v & E & W & BR & K)|[(W & K)|[(E & K)|(N & W & K)]]]; rewrite K.
  - rewrite existsb_eq. cbn [bind]. rewrite E in B. destruct (body_sub _ _ B) as (a & b & EL). destruct (bare_sub _ _ BR) as (a1 & b1 & ER).
    assert (C1 : is_cstr (n ++ c_eq :: raw)) by exact (sub_cstr _ _ _ _ LC EL).
    assert (C2 : is_cstr (n ++ c_eq :: v)). { intro X. apply in_app_or in X. destruct X as [X|[X|X]]; [apply C1, in_or_app; left; exact X|discriminate X|]. apply C1, in_or_app. right. right. rewrite ER. apply in_or_app. right. apply in_or_app. left. exact X. }
    destruct (putenv_effect env (negb (r_put1 R)) (negb (r_put2 R)) (n ++ c_eq :: v)%list L ST C2) as (r & env' & P & L' & S' & EF).
    { unfold small in *. rewrite EL, ER in LS. rewrite !app_length in LS. cbn [length] in LS. rewrite !app_length in LS. rewrite app_length. cbn [length]. lia. }
    exists r, env', (Assign n v). split; [exact P|]. split; [exact L'|]. split; [exact S'|]. split; [exact (ea_assign _ _ _ _ B W BR)|]. rewrite negb_andb. exact EF.
  - rewrite (existsb_word _ W). destruct (body_sub _ _ B) as (a & b & EL). assert (C1 : is_cstr (kv_of key)) by exact (sub_cstr _ _ _ _ LC EL).
    rewrite (has_getenv env _ L). cbn [bind]. destruct (has env (kv_of key)) as [x|] eqn:H.
    + destruct (putenv_effect env (negb (r_put1 R)) (negb (r_put2 R)) (kv_of key) L ST C1) as (r & env' & P & L' & S' & EF); [unfold small in *; rewrite EL, !app_length in LS; lia|].
      exists r, env', (Remove (kv_of key)). split; [exact P|]. split; [exact L'|]. split; [exact S'|]. split; [exact (ea_remove _ _ B W)|]. rewrite (has_getenv env _ L), H. split; [discriminate|]. intros _. rewrite negb_andb. exact EF.
    + exists PAM_SUCCESS, env, (Remove (kv_of key)). split; [reflexivity|]. split; [exact L|]. split; [exact ST|]. split; [exact (ea_remove _ _ B W)|]. rewrite (has_getenv env _ L), H. split; [auto|intro X; contradiction].
  - cbn [existsb]. match goal with |- context [getenv env ?x] => assert (GN : getenv env x = Ok None) by exact (getenv_nothing env L); rewrite GN; clear GN end. cbn [bind]. exists PAM_SUCCESS, env, Nothing. split; [reflexivity|]. split; [exact L|]. split; [exact ST|]. split; [|auto]. rewrite E in B.
    apply (ea_none _ _ B); [intros [|x n] raw (X & _); [contradiction|discriminate]|intros (X & _); contradiction].
  - exists PAM_SUCCESS, env, Nothing. split; [reflexivity|]. split; [exact L|]. split; [exact ST|]. split; [exact (ea_none _ _ B N W)|auto].
Qed.
Lemma env_is : forall line q q', env_asks line q -> env_asks line q' -> q = q'.
Proof. intros line q q' A B. destruct (env_line_asks_one line) as (q0 & _ & U). rewrite (U _ A), (U _ B). reflexivity. Qed.
Definition asks_for (line n : cstr) : Prop := (exists v, env_asks line (Assign n v)) \/ env_asks line (Remove n).
Lemma asks_for_word : forall line n, asks_for line n -> word n.
Proof. intros line n [(v & A)|A]; inversion A; subst; assumption. Qed.

Lemma env_lines_frame : forall rooms ls, Forall is_cstr ls -> Forall small ls -> forall k env, lived env -> stored small env ->
  exists r env', env_lines rooms k ls env = Ok (r, env') /\ lived env' /\ stored small env' /\
    ((forall j, r_put1 (rooms j) = true /\ r_put2 (rooms j) = true) -> r = PAM_SUCCESS) /\
    forall n, name_ok n -> (forall l, In l ls -> ~ asks_for l n) -> getenv env' (Some n) = getenv env (Some n).
Proof.
  intros rooms ls. induction ls as [|l ls IH]; intros FC FS k env L ST; cbn [env_lines]; [exists PAM_SUCCESS, env; auto|]. inversion FC as [|? ? C1 C2]; subst. inversion FS as [|? ? S1 S2]; subst.
  destruct (env_line_meaning (rooms k) env l L ST C1 S1) as (r & env1 & q & E & L1 & ST1 & A & D). rewrite E. cbn [bind].
  assert (FR : forall n, name_ok n -> ~ asks_for l n -> getenv env1 (Some n) = getenv env (Some n)).
  { intros n NK NA. destruct q as [|k0 v|k0]; [destruct D as (_ & ->); reflexivity| |].
    - apply (effect_frame _ _ _ _ _ _ D NK). intros w AW. apply NA. left. exists v. assert (W : word k0) by (inversion A; assumption). pose proof (asks_unique _ _ _ AW (ask_set k0 v (word_ok _ W))) as X. injection X as -> _. exact A.
    - assert (W : word k0) by (inversion A; assumption). destruct D as (D1 & D2). pose proof (has_getenv env k0 L) as HG. destruct (has env k0) as [x|]; [|destruct (D1 HG) as (_ & ->); reflexivity].
      assert (EF : effect (negb (r_put1 (rooms k) && r_put2 (rooms k))) env k0 r env1) by (apply D2; rewrite HG; discriminate). apply (effect_frame _ _ _ _ _ _ EF NK). intros w AW. apply NA. right. pose proof (asks_unique _ _ _ AW (ask_delete k0 (word_ok _ W))) as X. injection X as -> _. exact A. }
  assert (RS : (forall j, r_put1 (rooms j) = true /\ r_put2 (rooms j) = true) -> r = PAM_SUCCESS).
  { intro M. destruct (M k) as (M1 & M2). rewrite M1, M2 in D. cbn [negb andb] in D. destruct q as [|k0 v|k0]; [apply D| |].
    - assert (W : word k0) by (inversion A; assumption). destruct D as (m & m' & M' & M'' & P). pose proof (ask_set k0 v (word_ok _ W)) as AK. destruct P as [m' X _|k1 v' m' X _ _|k1 m' X _ _ _|k1 m' X _ _|k1 v' m' X _ _ _]; [destruct (asks_none_some _ _ _ X AK)|reflexivity|reflexivity|pose proof (asks_unique _ _ _ X AK) as Y; discriminate Y|discriminate X].
    - assert (W : word k0) by (inversion A; assumption). destruct D as (D1 & D2). pose proof (has_getenv env k0 L) as HG. destruct (has env k0) as [x|]; [|apply (D1 HG)]. destruct D2 as (m & m' & M' & M'' & P); [rewrite HG; discriminate|]. pose proof (ask_delete k0 (word_ok _ W)) as AK.
      destruct P as [m' X _|k1 v' m' X _ _|k1 m' X _ _ _|k1 m' X H _|k1 v' m' X _ _ _]; [destruct (asks_none_some _ _ _ X AK)|reflexivity|reflexivity| |discriminate X]. pose proof (asks_unique _ _ _ X AK) as Y. injection Y as ->. rewrite (M' k0 (word_ok _ W)) in HG. rewrite H in HG. discriminate HG. }
  destruct (Z.eqb_spec r PAM_SUCCESS) as [->|NR]; cbn [negb].
  - destruct (IH C2 S2 (S k) env1 L1 ST1) as (r2 & env2 & E2 & L2 & ST2 & RS2 & F2). exists r2, env2. split; [exact E2|]. split; [exact L2|]. split; [exact ST2|]. split; [exact RS2|]. intros n NK NN. rewrite F2; [apply FR; [exact NK|apply NN; left; reflexivity]|exact NK|intros x X; apply NN; right; exact X].
  - exists r, env1. split; [reflexivity|]. split; [exact L1|]. split; [exact ST1|]. split; [exact RS|]. intros n NK NN. apply FR; [exact NK|]. apply NN. left. reflexivity.
Qed.

(** Reading the environment file is defined whatever it contains, succeeds when there is memory, and changes only variables that one of its
    lines asks for, whose names consist of letters, digits and underscores. *)
Theorem env_changes_only_asked : forall mem rooms content ls ok env, lived env -> stored small env -> ~ In NUL content -> logical [] (split_lines content) ls ok -> Forall small ls ->
  exists r env', parse_env_file mem rooms (Some content) env = Ok (r, env') /\ lived env' /\ stored small env' /\
    (mem = true -> (forall j, r_put1 (rooms j) = true /\ r_put2 (rooms j) = true) -> r = PAM_SUCCESS) /\
    (forall n, name_ok n -> (forall l, In l ls -> ~ asks_for l n) -> getenv env' (Some n) = getenv env (Some n)) /\
    (forall n, name_ok n -> ~ word n -> getenv env' (Some n) = getenv env (Some n)).
Proof.
  intros mem rooms content ls ok env L ST NN LG FS. destruct (read_lines _ _ _ NN LG) as (RF & FC). unfold parse_env_file. destruct mem.
  - rewrite RF. replace (negb (PAM_SUCCESS =? PAM_SUCCESS)) with false by reflexivity. cbv iota. destruct (env_lines_frame rooms ls FC FS 0 env L ST) as (r & env' & E & L' & ST' & RS & F). exists r, env'. split; [exact E|]. split; [exact L'|]. split; [exact ST'|]. split; [auto|]. split; [exact F|].
    intros n NK NW. apply F; [exact NK|]. intros l _ A. exact (NW (asks_for_word _ _ A)).
  - cbn [read_file]. exists PAM_BUF_ERR, env. split; [reflexivity|]. split; [exact L|]. split; [exact ST|]. split; [discriminate|]. split; reflexivity.
Qed.
Lemma env_lines_split : forall rooms a b k env env', env_lines rooms k (a ++ b) env = Ok (PAM_SUCCESS, env') ->
  exists env1, env_lines rooms k a env = Ok (PAM_SUCCESS, env1) /\ env_lines rooms (k + length a) b env1 = Ok (PAM_SUCCESS, env').
Proof.
  intros rooms a b. induction a as [|l a IH]; intros k env env' E; cbn [app] in E; [exists env; rewrite Nat.add_0_r; auto|]. cbn [env_lines length] in *.
  destruct (env_line (rooms k) env l) as [(r, env1)| |]; cbn [bind] in *; try discriminate. destruct (Z.eqb_spec r PAM_SUCCESS) as [->|N]; cbn [negb] in *; [|injection E as -> _; contradiction].
  replace (k + S (length a))%nat with (S k + length a)%nat by lia. exact (IH _ _ _ E).
Qed.
(** When the result is PAM_SUCCESS, the last line that asks for a variable counts. *)
Theorem env_last_line_counts : forall mem rooms content a l b ok env env' n, lived env -> stored small env -> ~ In NUL content -> logical [] (split_lines content) (a ++ l :: b) ok -> Forall small (a ++ l :: b) ->
  parse_env_file mem rooms (Some content) env = Ok (PAM_SUCCESS, env') -> (forall x, In x b -> ~ asks_for x n) ->
  (forall v, env_asks l (Assign n v) -> getenv env' (Some n) = Ok (Some v)) /\ (env_asks l (Remove n) -> getenv env' (Some n) = Ok None).
Proof.
  intros mem rooms content a l b ok env env' n L ST NN LG FS E NB. destruct (read_lines _ _ _ NN LG) as (RF & FC). unfold parse_env_file in E. destruct mem; [|discriminate E].
  rewrite RF in E. replace (negb (PAM_SUCCESS =? PAM_SUCCESS)) with false in E by reflexivity. cbv iota in E. apply env_lines_split in E. destruct E as (env1 & E1 & E2).
  apply Forall_app in FS, FC. destruct FS as (FS1 & FS2), FC as (FC1 & FC2). inversion FS2 as [|? ? S1 S2]; subst. inversion FC2 as [|? ? D1 D2]; subst.
  destruct (env_lines_frame rooms a FC1 FS1 0 env L ST) as (r1 & e1 & X & L1 & ST1 & _ & _). rewrite E1 in X. injection X as <- <-. cbn [env_lines] in E2.
  destruct (env_line_meaning (rooms (0 + length a)%nat) env1 l L1 ST1 D1 S1) as (r2 & env2 & q & E & L2 & ST2 & A & D). rewrite E in E2. cbn [bind] in E2.
  destruct (Z.eqb_spec r2 PAM_SUCCESS) as [->|NR]; cbn [negb] in E2; [|injection E2 as -> _; contradiction].
  destruct (env_lines_frame rooms b D2 S2 (S (0 + length a)) env2 L2 ST2) as (r3 & e3 & X & L3 & ST3 & _ & F3). rewrite E2 in X. injection X as <- <-. split.
  - intros v AS. rewrite (env_is _ _ _ A AS) in D. assert (W : word n) by (inversion AS; assumption). rewrite (F3 n (word_ok _ W) NB). destruct D as (m & m' & M & M' & P). rewrite (M' n (word_ok _ W)). f_equal. pose proof (ask_set n v (word_ok _ W)) as AK.
    inversion P as [m0 X Y R0 M0|k v' m0 X Y Z R0 M0|k m0 X Y Z U R0 M0|k m0 X Y Z R0 M0|k v' m0 X Y Z U R0 M0]; subst; pose proof (asks_unique _ _ _ X AK) as Q; [injection Q as -> ->; exact Y|discriminate Q].
  - intros AS. rewrite (env_is _ _ _ A AS) in D. assert (W : word n) by (inversion AS; assumption). rewrite (F3 n (word_ok _ W) NB). destruct D as (K1 & K2). pose proof (has_getenv env1 n L1) as HG. destruct (has env1 n) as [x|]; [|destruct (K1 HG) as (_ & ->); exact HG].
    destruct K2 as (m & m' & M & M' & P); [rewrite HG; discriminate|]. rewrite (M' n (word_ok _ W)). f_equal. pose proof (ask_delete n (word_ok _ W)) as AK.
    inversion P as [m0 X Y R0 M0|k v' m0 X Y Z R0 M0|k m0 X Y Z U R0 M0|k m0 X Y Z R0 M0|k v' m0 X Y Z U R0 M0]; subst; pose proof (asks_unique _ _ _ X AK) as Q; [discriminate Q|injection Q as ->; exact Z].
Qed.

(** ** The module *)

(** The last argument that says something, or the default. *)
Definition last_says {A : Type} (P : cstr -> A -> Prop) (args : list cstr) (dflt v : A) : Prop :=
  (exists a x b, args = (a ++ x :: b)%list /\ P x v /\ forall y w, In y b -> ~ P y w) \/ (forall y w, In y args -> ~ P y w) /\ v = dflt.
Definition says_text (k x : cstr) (v : option cstr) : Prop := exists f, x = (k ++ f)%list /\ f <> [] /\ v = Some f.
Definition says_name (k x : cstr) (v : cstr) : Prop := x = (k ++ v)%list /\ v <> [].
Definition says_number (k x : cstr) (v : Z) : Prop := exists t w, x = (k ++ t)%list /\ Umask_Props.number 10 t w /\ Pwhist_Props.low32 w v.
Lemma fold_says : forall (A : Type) (get : opts -> A) (P : cstr -> A -> Prop) args o,
  (forall a o, (exists v, P a v /\ get (parse_opt o a) = v) \/ (forall v, ~ P a v) /\ get (parse_opt o a) = get o) -> last_says P args (get o) (get (fold_left parse_opt args o)).
Proof.
  intros A get P args o S. induction args as [|x args IH] using rev_ind; [right; split; [intros y w []|reflexivity]|]. rewrite fold_left_app. cbn [fold_left]. set (o1 := fold_left parse_opt args o) in *. destruct (S x o1) as [(v & X & G)|(N & G)].
  - left. exists args, x, []. rewrite G. split; [reflexivity|]. split; [exact X|intros y w []].
  - rewrite G. destruct IH as [(a & y & b & -> & Y & NB)|(NA & ->)]; [left|right].
    + exists a, y, (b ++ [x])%list. split; [rewrite <- app_assoc; reflexivity|]. split; [exact Y|]. intros z w I. apply in_app_or in I. destruct I as [I|[<-|[]]]; [exact (NB z w I)|apply N].
    + split; [|reflexivity]. intros z w I. apply in_app_or in I. destruct I as [I|[<-|[]]]; [exact (NA z w I)|apply N].
Qed.
Lemma atoi_says : forall k t, says_number k (k ++ t) (atoi t).
Proof. intros k t. exists t, (fst (strtol t)). split; [reflexivity|]. split; [apply Umask_Props.strtol_number|]. apply (Pwhist_Props.to_int_low (fst (strtol t))). Qed.

(** The options: for each kind the last argument counts; an empty file name is no argument. *)
Theorem env_options_meaning : forall args, let o := pam_parse args in
  last_says (says_text (lit "conffile=")) args None (o_conf o) /\ last_says (says_text (lit "envfile=")) args None (o_env o) /\ last_says (says_number (lit "readenv=")) args 1 (o_read o) /\
  last_says (says_name (lit "user_envfile=")) args (lit ".pam_environment") (o_uenv o) /\ last_says (says_number (lit "user_readenv=")) args 0 (o_uread o).
Proof.
  intros args o. unfold o, pam_parse. set (o0 := mkOpts None None 1 (lit ".pam_environment") 0).
  assert (CL : forall a, a = lit "debug" \/ (exists t, a = (lit "conffile=" ++ t)%list) \/ (exists t, a = (lit "envfile=" ++ t)%list) \/ (exists t, a = (lit "user_envfile=" ++ t)%list) \/ (exists t, a = (lit "readenv=" ++ t)%list) \/ (exists t, a = (lit "user_readenv=" ++ t)%list) \/
    (forall t, a <> lit "conffile=" ++ t /\ a <> lit "envfile=" ++ t /\ a <> lit "user_envfile=" ++ t /\ a <> lit "readenv=" ++ t /\ a <> lit "user_readenv=" ++ t)%list /\ forall o, parse_opt o a = o).
  { intro a. destruct (streq a (lit "debug")) eqn:D; [left; apply streq_eq in D; exact D|right].
    destruct (skip_prefix (lit "conffile=") a) as [t|] eqn:S1; [left; apply skip_prefix_some in S1; eauto|right]. destruct (skip_prefix (lit "envfile=") a) as [t|] eqn:S2; [left; apply skip_prefix_some in S2; eauto|right].
    destruct (skip_prefix (lit "user_envfile=") a) as [t|] eqn:S3; [left; apply skip_prefix_some in S3; eauto|right]. destruct (skip_prefix (lit "readenv=") a) as [t|] eqn:S4; [left; apply skip_prefix_some in S4; eauto|right].
    destruct (skip_prefix (lit "user_readenv=") a) as [t|] eqn:S5; [left; apply skip_prefix_some in S5; eauto|right]. split; [|intro o1; unfold parse_opt; rewrite D, S1, S2, S3, S4, S5; reflexivity].
    intro t. repeat split; intros ->; rewrite skip_prefix_app in *; discriminate. }
  split; [|split; [|split; [|split]]].
  - apply (fold_says _ o_conf (says_text (lit "conffile=")) args o0). intros a o1. destruct (CL a) as [->|[(t & ->)|[(t & ->)|[(t & ->)|[(t & ->)|[(t & ->)|(N & U)]]]]]].
    + right. split; [intros v (f & E & _); discriminate E|reflexivity].
    + destruct t as [|c t]; [right; split; [|reflexivity]; intros v (f & E & N & _); apply app_inv_head in E; subst f; contradiction|left; exists (Some (c :: t)); split; [exists (c :: t); split; [reflexivity|split; [discriminate|reflexivity]]|reflexivity]].
    + right. split; [intros v (f & E & _); discriminate E|destruct t; reflexivity].
    + right. split; [intros v (f & E & _); discriminate E|destruct t; reflexivity].
    + right. split; [intros v (f & E & _); discriminate E|reflexivity].
    + right. split; [intros v (f & E & _); discriminate E|reflexivity].
    + right. split; [intros v (f & E & _); destruct (N f) as (X & _); contradiction|rewrite U; reflexivity].
  - apply (fold_says _ o_env (says_text (lit "envfile=")) args o0). intros a o1. destruct (CL a) as [->|[(t & ->)|[(t & ->)|[(t & ->)|[(t & ->)|[(t & ->)|(N & U)]]]]]].
    + right. split; [intros v (f & E & _); discriminate E|reflexivity].
    + right. split; [intros v (f & E & _); discriminate E|destruct t; reflexivity].
    + destruct t as [|c t]; [right; split; [|reflexivity]; intros v (f & E & N & _); apply app_inv_head in E; subst f; contradiction|left; exists (Some (c :: t)); split; [exists (c :: t); split; [reflexivity|split; [discriminate|reflexivity]]|reflexivity]].
    + right. split; [intros v (f & E & _); discriminate E|destruct t; reflexivity].
    + right. split; [intros v (f & E & _); discriminate E|reflexivity].
    + right. split; [intros v (f & E & _); discriminate E|reflexivity].
    + right. split; [intros v (f & E & _); destruct (N f) as (_ & X & _); contradiction|rewrite U; reflexivity].
  - apply (fold_says _ o_read (says_number (lit "readenv=")) args o0). intros a o1. destruct (CL a) as [->|[(t & ->)|[(t & ->)|[(t & ->)|[(t & ->)|[(t & ->)|(N & U)]]]]]].
    + right. split; [intros v (f & w & E & _); discriminate E|reflexivity].
    + right. split; [intros v (f & w & E & _); discriminate E|destruct t; reflexivity].
    + right. split; [intros v (f & w & E & _); discriminate E|destruct t; reflexivity].
    + right. split; [intros v (f & w & E & _); discriminate E|destruct t; reflexivity].
    + left. exists (atoi t). split; [apply atoi_says|reflexivity].
    + right. split; [intros v (f & w & E & _); discriminate E|reflexivity].
    + right. split; [intros v (f & w & E & _); destruct (N f) as (_ & _ & _ & X & _); contradiction|rewrite U; reflexivity].
  - apply (fold_says _ o_uenv (says_name (lit "user_envfile=")) args o0). intros a o1. destruct (CL a) as [->|[(t & ->)|[(t & ->)|[(t & ->)|[(t & ->)|[(t & ->)|(N & U)]]]]]].
    + right. split; [intros v (E & _); discriminate E|reflexivity].
    + right. split; [intros v (E & _); discriminate E|destruct t; reflexivity].
    + right. split; [intros v (E & _); discriminate E|destruct t; reflexivity].
    + destruct t as [|c t]; [right; split; [|reflexivity]; intros v (E & N); apply app_inv_head in E; subst v; contradiction|left; exists (c :: t); split; [split; [reflexivity|discriminate]|reflexivity]].
    + right. split; [intros v (E & _); discriminate E|reflexivity].
    + right. split; [intros v (E & _); discriminate E|reflexivity].
    + right. split; [intros v (E & _); destruct (N v) as (_ & _ & X & _); contradiction|rewrite U; reflexivity].
  - apply (fold_says _ o_uread (says_number (lit "user_readenv=")) args o0). intros a o1. destruct (CL a) as [->|[(t & ->)|[(t & ->)|[(t & ->)|[(t & ->)|[(t & ->)|(N & U)]]]]]].
    + right. split; [intros v (f & w & E & _); discriminate E|reflexivity].
    + right. split; [intros v (f & w & E & _); discriminate E|destruct t; reflexivity].
    + right. split; [intros v (f & w & E & _); discriminate E|destruct t; reflexivity].
    + right. split; [intros v (f & w & E & _); discriminate E|destruct t; reflexivity].
    + right. split; [intros v (f & w & E & _); discriminate E|reflexivity].
    + left. exists (atoi t). split; [apply atoi_says|reflexivity].
    + right. split; [intros v (f & w & E & _); destruct (N f) as (_ & _ & _ & _ & X); contradiction|rewrite U; reflexivity].
Qed.

(** Which files are opened, in which order: the configuration file, then the environment file, then the user's; the last one only between
    taking on the user's privileges and giving them up, only when user_readenv says so and all before went well, and with the module
    failing when either change of privileges fails. *)
Theorem files_opened : forall W args env r env' ev, handle_env W args env = Ok (r, env', ev) ->
  exists conf envf rd uf urd, last_says (says_text (lit "conffile=")) args None conf /\ last_says (says_text (lit "envfile=")) args None envf /\ last_says (says_number (lit "readenv=")) args 1 rd /\
    last_says (says_name (lit "user_envfile=")) args (lit ".pam_environment") uf /\ last_says (says_number (lit "user_readenv=")) args 0 urd /\
    exists pre, (pre = [Open (match conf with Some f => f | None => lit "/etc/security/pam_env.conf" end)] \/
                 (rd <> 0 /\ pre = [Open (match conf with Some f => f | None => lit "/etc/security/pam_env.conf" end); Open (match envf with Some f => f | None => lit "/etc/environment" end)])) /\
      (ev = pre \/ (urd <> 0 /\ w_drop W = true /\ exists u dir sh, i_user (w_items W) = Some u /\ i_pw (w_items W) u = Some (dir, sh) /\ w_stat W (dir ++ c_slash :: uf)%list = true /\
                     ev = (pre ++ [Drop u; Open (dir ++ c_slash :: uf); Regain])%list /\ (w_regain W = false -> r = PAM_SESSION_ERR))) /\
      (ev = pre -> w_drop W = false \/ urd = 0 \/ r <> PAM_SUCCESS \/ forall u dir sh, i_user (w_items W) = Some u -> i_pw (w_items W) u = Some (dir, sh) -> w_stat W (dir ++ c_slash :: uf)%list = false).
Proof.
  intros W args env r env' ev H. destruct (env_options_meaning args) as (O1 & O2 & O3 & O4 & O5). exists (o_conf (pam_parse args)), (o_env (pam_parse args)), (o_read (pam_parse args)), (o_uenv (pam_parse args)), (o_uread (pam_parse args)).
  split; [exact O1|]. split; [exact O2|]. split; [exact O3|]. split; [exact O4|]. split; [exact O5|]. clear O1 O2 O3 O4 O5. unfold handle_env in H. set (o := pam_parse args) in *. clearbody o.
  set (conf := match o_conf o with Some f => f | None => lit "/etc/security/pam_env.conf" end) in *. cbv zeta in H.
  destruct (parse_config_file (w_mem W 0) (w_rooms W 0) (w_items W) (w_open W false conf) env) as [(r1, env1)| |]; cbn [bind] in H; try discriminate.
  set (envf := match o_env o with Some f => f | None => lit "/etc/environment" end) in *.
  match type of H with bind ?x _ = _ => destruct x as [((r2, env2), ev2)| |] eqn:S2 end; cbn [bind] in H; try discriminate.
  assert (P2 : ev2 = [Open conf] \/ (o_read o <> 0 /\ ev2 = [Open conf; Open envf])).
  { destruct (negb (o_read o =? 0) && (r1 =? PAM_SUCCESS)) eqn:C; [|injection S2 as _ _ <-; left; reflexivity]. destruct (parse_env_file (w_mem W 1) (w_rooms W 1) (w_open W false envf) env1) as [(r3, env3)| |]; cbn [bind] in S2; try discriminate. injection S2 as _ _ <-. right. split; [|reflexivity].
    apply andb_true_iff in C. destruct C as (C & _). apply negb_true_iff, Z.eqb_neq in C. exact C. }
  clear S2. exists ev2. split; [exact P2|]. clear P2. unfold item_byname in H. replace (streq (lit "PAM_USER") (lit "PAM_USER")) with true in H by reflexivity. replace (streq (lit "PAM_USER") (lit "HOME")) with false in H by reflexivity. replace (streq (lit "PAM_USER") (lit "SHELL")) with false in H by reflexivity. cbn [orb] in H.
  assert (NE : forall x y z : event, (ev2 ++ [x; y; z])%list <> ev2) by (intros x y z E; apply (f_equal (@length event)) in E; rewrite app_length in E; cbn in E; lia).
  destruct (Z.eqb_spec (o_uread o) 0) as [UR|UR]; cbn [negb andb] in H; [injection H as <- <- <-; split; [left; reflexivity|auto]|].
  destruct (Z.eqb_spec r2 PAM_SUCCESS) as [->|R2]; [|injection H as <- <- <-; split; [left; reflexivity|auto]].
  destruct (i_user (w_items W)) as [u|] eqn:U; [|injection H as <- <- <-; split; [left; reflexivity|]; intros _; right; right; right; discriminate].
  destruct (i_pw (w_items W) u) as [(dir, sh)|] eqn:PW; [|injection H as <- <- <-; split; [left; reflexivity|]; intros _; right; right; right; intros u0 d0 s0 X; injection X as <-; rewrite PW; discriminate].
  destruct (w_path W); cbn [negb] in H; [|injection H as <- <- <-; split; [left; reflexivity|]; intros _; right; right; left; discriminate].
  destruct (w_stat W (dir ++ c_slash :: o_uenv o)%list) eqn:SS; cbn [negb] in H; [|injection H as <- <- <-; split; [left; reflexivity|]; intros _; right; right; right; intros u0 d0 s0 X; injection X as <-; rewrite PW; intro X; injection X as <- <-; exact SS].
  destruct (w_drop W) eqn:DR; cbn [negb] in H; [|injection H as <- <- <-; split; [left; reflexivity|auto]].
  destruct (parse_config_file (w_mem W 2) (w_rooms W 2) (w_items W) (w_open W true (dir ++ c_slash :: o_uenv o)%list) env2) as [(r3, env3)| |]; cbn [bind] in H; try discriminate. injection H as <- <- <-.
  split; [|intro E; destruct (NE _ _ _ E)]. right. split; [exact UR|]. split; [reflexivity|]. exists u, dir, sh. split; [reflexivity|]. split; [exact PW|]. split; [exact SS|]. split; [reflexivity|]. intros ->. reflexivity.
Qed.

(** The files that are there contain lines that fit into memory, none of which touches [n]. *)
Definition files_spare (W : world) (n : cstr) : Prop := forall b f s, w_open W b f = Some s -> ~ In NUL s /\ exists ls ok, logical [] (split_lines s) ls ok /\ Forall small ls /\ forall l, In l ls -> ~ names l n /\ ~ asks_for l n.
(** The module is defined whatever the files contain, and a variable that no file names keeps its value. *)
Theorem module_changes_only_named : forall W args env item n, lived env -> stored small env -> names_items (w_items W) item -> name_ok n -> files_spare W n ->
  exists r env' ev, handle_env W args env = Ok (r, env', ev) /\ lived env' /\ getenv env' (Some n) = getenv env (Some n).
Proof.
  intros W args env item n L ST NI NK FS.
  assert (PC : forall mem rooms b f env, lived env -> stored small env -> exists r env', parse_config_file mem rooms (w_items W) (w_open W b f) env = Ok (r, env') /\ lived env' /\ stored small env' /\ getenv env' (Some n) = getenv env (Some n)).
  { intros mem rooms b f env0 L0 ST0. destruct (w_open W b f) as [s|] eqn:O; [|exists PAM_IGNORE, env0; split; [reflexivity|auto]]. destruct (FS _ _ _ O) as (NN & ls & ok & LG & SM & SP).
    destruct (conf_changes_only_named mem rooms (w_items W) item s ls ok env0 L0 ST0 NI NN LG SM) as (r & env1 & E & L1 & ST1 & _ & F). exists r, env1. split; [exact E|]. split; [exact L1|]. split; [exact ST1|]. apply F; [exact NK|]. intros l I. apply SP. exact I. }
  assert (PE : forall mem rooms b f env, lived env -> stored small env -> exists r env', parse_env_file mem rooms (w_open W b f) env = Ok (r, env') /\ lived env' /\ stored small env' /\ getenv env' (Some n) = getenv env (Some n)).
  { intros mem rooms b f env0 L0 ST0. destruct (w_open W b f) as [s|] eqn:O; [|exists PAM_SUCCESS, env0; split; [reflexivity|auto]]. destruct (FS _ _ _ O) as (NN & ls & ok & LG & SM & SP).
    destruct (env_changes_only_asked mem rooms s ls ok env0 L0 ST0 NN LG SM) as (r & env1 & E & L1 & ST1 & _ & F & _). exists r, env1. split; [exact E|]. split; [exact L1|]. split; [exact ST1|]. apply F; [exact NK|]. intros l I. apply SP. exact I. }
  unfold handle_env. set (o := pam_parse args). clearbody o. cbv zeta. match goal with |- context [parse_config_file (w_mem W 0) ?r ?i (w_open W false ?f) env] => destruct (PC (w_mem W 0) r false f env L ST) as (r1 & env1 & E1 & L1 & ST1 & G1) end. rewrite E1. cbn [bind].
  match goal with |- exists r env' ev, bind ?b _ = _ /\ _ => assert (S2 : exists r2 env2 ev2, b = Ok (r2, env2, ev2) /\ lived env2 /\ stored small env2 /\ getenv env2 (Some n) = getenv env (Some n)) end.
  { destruct (negb (o_read o =? 0) && (r1 =? PAM_SUCCESS)); [|eexists; eexists; eexists; split; [reflexivity|auto]]. match goal with |- context [parse_env_file (w_mem W 1) ?r (w_open W false ?f) env1] => destruct (PE (w_mem W 1) r false f env1 L1 ST1) as (r2 & env2 & E2 & L2 & ST2 & G2) end.
    rewrite E2. cbn [bind]. eexists; eexists; eexists; split; [reflexivity|]. split; [exact L2|]. split; [exact ST2|]. rewrite G2. exact G1. }
  destruct S2 as (r2 & env2 & ev2 & E2 & L2 & ST2 & G2). rewrite E2. cbn [bind].
  assert (DONE : forall (r : Z) (ev : list event), exists (r' : Z) env' (ev' : list event), Ok (r, env2, ev) = Ok (r', env', ev') /\ lived env' /\ getenv env' (Some n) = getenv env (Some n)) by (intros r ev; exists r, env2, ev; auto).
  destruct (negb (o_uread o =? 0) && (r2 =? PAM_SUCCESS)); [|apply DONE]. destruct (item_byname (w_items W) (lit "PAM_USER")) as [u|]; [|apply DONE]. destruct (i_pw (w_items W) u) as [(dir, sh)|]; [|apply DONE].
  destruct (negb (w_path W)); [apply DONE|]. destruct (negb (w_stat W (dir ++ c_slash :: o_uenv o)%list)); [apply DONE|]. destruct (negb (w_drop W)); [apply DONE|].
  destruct (PC (w_mem W 2) (w_rooms W 2) true (dir ++ c_slash :: o_uenv o)%list env2 L2 ST2) as (r3 & env3 & E3 & L3 & ST3 & G3). rewrite E3. cbn [bind]. eexists; eexists; eexists; split; [reflexivity|]. split; [exact L3|]. rewrite G3. exact G2.
Qed.
Lemma last_says_unique : forall (A : Type) (P : cstr -> A -> Prop) args d v w, (forall x v w, P x v -> P x w -> v = w) -> last_says P args d v -> last_says P args d w -> v = w.
Proof.
  intros A P args d v w F [(a & x & b & E & X & N)|(N & ->)] [(a' & x' & b' & E' & X' & N')|(N' & ->)].
  - assert (K : forall (a a' : list cstr) x x' b b', (a ++ x :: b)%list = (a' ++ x' :: b')%list -> P x v -> P x' w -> (forall y w, In y b -> ~ P y w) -> (forall y w, In y b' -> ~ P y w) -> x = x').
    { clear. induction a as [|c a IH]; intros [|c' a'] x x' b b' E X X' N N'; cbn [app] in E; injection E as E1 E2; [exact E1| | |].
      - destruct (N x' w); [rewrite E2; apply in_or_app; right; left; reflexivity|exact X'].
      - destruct (N' x v); [rewrite <- E2; apply in_or_app; right; left; reflexivity|exact X].
      - exact (IH a' x x' b b' E2 X X' N N'). }
    rewrite E in E'. rewrite <- (K _ _ _ _ _ _ E' X X' N N') in X'. exact (F _ _ _ X X').
  - destruct (N' x v); [rewrite E; apply in_or_app; right; left; reflexivity|exact X].
  - destruct (N x' w); [rewrite E'; apply in_or_app; right; left; reflexivity|exact X'].
  - reflexivity.
Qed.
(** When the configuration file cannot be opened the module does nothing: neither the environment file nor the user's is read. *)
Theorem missing_conf_skips_all : forall W args env conf, last_says (says_text (lit "conffile=")) args None conf ->
  w_open W false (match conf with Some f => f | None => lit "/etc/security/pam_env.conf" end) = None ->
  handle_env W args env = Ok (PAM_IGNORE, env, [Open (match conf with Some f => f | None => lit "/etc/security/pam_env.conf" end)]).
Proof.
  intros W args env conf LS H. destruct (env_options_meaning args) as (O1 & _). assert (E : conf = o_conf (pam_parse args)).
  { refine (last_says_unique _ _ _ _ _ _ _ LS O1). intros x v w (f & E1 & _ & ->) (g & E2 & _ & ->). rewrite E1 in E2. apply app_inv_head in E2. congruence. }
  subst conf. unfold handle_env. cbv zeta. rewrite H. unfold parse_config_file. cbn [read_file]. replace (negb (PAM_IGNORE =? PAM_SUCCESS)) with true by reflexivity. cbv iota. cbn [bind]. replace (PAM_IGNORE =? PAM_SUCCESS) with false by reflexivity. rewrite !andb_false_r. cbn [bind]. rewrite andb_false_r. reflexivity.
Qed.

(** ** Findings *)

Definition all_room : room := mkRoom true (fun _ => true) (fun _ => true) (fun _ => true) true true true.
Definition env0 : option environ := snd (make_env false false).
Definition joe : items := mkItems (Some (lit "joe")) None None None None (fun u => if streq u (lit "joe") then Some (lit "/home/joe", lit "/bin/sh") else None).
(** Reading a configuration file of these lines with memory. *)
Definition conf_of (ls : list cstr) : option (list ascii) := Some (concat (map (fun l => l ++ [c_nl])%list ls)).
Definition run_conf (ls : list cstr) (n : cstr) : option (Z * option cstr) :=
  match parse_config_file true (fun _ => all_room) joe (conf_of ls) env0 with Ok (r, e) => Some (r, has e n) | _ => None end.

(** A blank at the end of a line of pam_env.conf makes the line malformed: the variable is not set, and when it is the last line the module
    fails. *)
Theorem trailing_blank_tolerated_refuted : exists l n v, run_conf [l] n = Some (PAM_SUCCESS, Some v) /\ run_conf [l ++ [c_space]]%list n = Some (PAM_ABORT, None).
Proof. exists (lit "A DEFAULT=b"), (lit "A"), (lit "b"). split; vm_compute; reflexivity. Qed.
(** So does a comment. *)
Theorem trailing_comment_tolerated_refuted : exists l n v, run_conf [l] n = Some (PAM_SUCCESS, Some v) /\ run_conf [l ++ lit " # why"]%list n = Some (PAM_ABORT, None).
Proof. exists (lit "A DEFAULT=b"), (lit "A"), (lit "b"). split; vm_compute; reflexivity. Qed.
(** The same malformed line is passed over when another one follows. *)
Theorem malformed_line_fails_refuted : exists bad good n, run_conf [good; bad] n = Some (PAM_ABORT, Some (lit "b")) /\ run_conf [bad; good] n = Some (PAM_SUCCESS, Some (lit "b")).
Proof. exists (lit "X DEFAULT"), (lit "A DEFAULT=b"), (lit "A"). split; vm_compute; reflexivity. Qed.
(** The entry that pam_env.conf gives as an example makes the module fail when it comes last and there is no remote host. *)
Theorem documented_remotehost_refuted : run_conf [lit "REMOTEHOST DEFAULT= OVERRIDE=@{PAM_RHOST}"] (lit "REMOTEHOST") = Some (PAM_ABORT, None) /\
  run_conf [lit "REMOTEHOST DEFAULT= OVERRIDE=@{PAM_RHOST}"; lit "A DEFAULT=b"] (lit "REMOTEHOST") = Some (PAM_SUCCESS, None).
Proof. split; vm_compute; reflexivity. Qed.
(** The order of DEFAULT and OVERRIDE matters: an empty word behind something quoted counts as a quoted empty value. *)
Theorem order_of_arguments_refuted : exists d o n, run_conf [lit "X " ++ d ++ lit " " ++ o; lit "A DEFAULT=b"]%list n = Some (PAM_SUCCESS, None) /\
  run_conf [lit "X " ++ o ++ lit " " ++ d; lit "A DEFAULT=b"]%list n = Some (PAM_SUCCESS, Some []).
Proof. exists (lit "DEFAULT="), ((lit "OVERRIDE=" ++ [c_dq] ++ lit "${NONE}" ++ [c_dq])%list), (lit "X"). split; vm_compute; reflexivity. Qed.
(** A line with neither DEFAULT nor OVERRIDE does not always unset: with an equals sign in the name it sets. *)
Theorem bare_line_unsets_refuted : exists l n v, line_is l l [] /\ run_conf [l] n = Some (PAM_SUCCESS, Some v).
Proof. exists (lit "A=b"), (lit "A"), (lit "b"). split; [|vm_compute; reflexivity]. exists []. rewrite app_nil_r. split; [reflexivity|]. split; [|constructor]. intros c I. cbn in I. repeat (destruct I as [<-|I]; [intros [X|[X|[X|[]]]]; discriminate X|]). destruct I. Qed.
(** A '#' inside quotes ends the value in the environment file, and takes the closing quote with it. *)
Theorem quoted_hash_kept_refuted : exists v w env', v <> w /\ parse_env_file true (fun _ => all_room) (conf_of [lit "X=" ++ [c_dq] ++ v ++ [c_dq]])%list env0 = Ok (PAM_SUCCESS, env') /\ getenv env' (Some (lit "X")) = Ok (Some w).
Proof. exists (lit "a#b"), (lit "a"). eexists. split; [discriminate|]. split; vm_compute; reflexivity. Qed.

(** ** Examples *)

Lemma env0_lived : lived env0 /\ stored small env0.
Proof. split; [apply lived_start; reflexivity|]. intros e s E I. injection E as <-. vm_compute in I. repeat (destruct I as [I|I]; [discriminate I|]). destruct I. Qed.
Lemma joe_items : names_items joe (item_byname joe).
Proof.
  split; [apply item_byname_is|]. intros n s H. unfold item_byname in H. cbn [joe i_user i_prompt i_tty i_ruser i_rhost i_pw] in H. replace (streq (lit "joe") (lit "joe")) with true in H by reflexivity.
  assert (X : s = lit "joe" \/ s = lit "/home/joe" \/ s = lit "/bin/sh").
  { destruct (streq n (lit "PAM_USER")), (streq n (lit "HOME")), (streq n (lit "SHELL")); cbn [orb] in H; try (injection H as <-; auto; fail); destruct (streq n (lit "PAM_USER_PROMPT")); try discriminate H; destruct (streq n (lit "PAM_TTY")); try discriminate H; destruct (streq n (lit "PAM_RUSER")); try discriminate H; destruct (streq n (lit "PAM_RHOST")); discriminate H. }
  destruct X as [->|[->| ->]]; (split; [cbn; intros I; repeat (destruct I as [I|I]; [discriminate I|]); destruct I|unfold small; cbn; unfold SIZE_MAX; lia]).
Qed.
Lemma conf_logical : forall content ls ok, ~ In NUL content -> file_lines NUL (split_lines content) = (ls, ok) -> logical [] (split_lines content) ls ok.
Proof. intros content ls ok N H. change [] with (added NUL) at 1. apply lines_follow_the_rules; [split; discriminate|exact N|exact H]. Qed.

Example expand_example : exists r v t, expand_arg (fun _ => true) true env0 joe (lit "@{HOME}/\$x ${NONE}$") = Ok (r, v) /\ r = PAM_SUCCESS /\ v = t /\ t = lit "/home/joe/$x $".
Proof. do 3 eexists. split; [vm_compute; reflexivity|]. split; [reflexivity|]. split; reflexivity. Qed.
Example expand_open_example : expand_arg (fun _ => true) true env0 joe (lit "a${HOME") = Ok (PAM_ABORT, lit "a${HOME").
Proof. vm_compute. reflexivity. Qed.
Example line_example : exists l, line_is (lit "PATH DEFAULT=/bin OVERRIDE=" ++ [c_dq] ++ lit "a b" ++ [c_dq; c_nl])%list (lit "PATH") l /\ l = [(false, false, lit "/bin"); (true, true, lit "a b")] /\ no_stray l.
Proof.
  eexists. split; [|split; [reflexivity|]].
  - exists (lit " DEFAULT=/bin OVERRIDE=" ++ [c_dq] ++ lit "a b" ++ [c_dq; c_nl])%list. split; [reflexivity|]. split; [intros c I; cbn in I; repeat (destruct I as [<-|I]; [intros [X|[X|[X|[]]]]; discriminate X|]); destruct I|].
    apply (args_cons [c_space] false false (lit "/bin") (lit "/bin") ([c_space] ++ key true ++ (c_dq :: lit "a b" ++ [c_dq]) ++ [c_nl])%list); [discriminate|intros c [<-|[]]; cbn; auto| |].
    + apply w_plain; [intros c I; cbn in I; repeat (destruct I as [<-|I]; [intros [X|[X|[X|[]]]]; discriminate X|]); destruct I|discriminate].
    + apply args_cons; [discriminate|intros c [<-|[]]; cbn; auto| |constructor]. apply w_quoted. intro I. cbn in I. repeat (destruct I as [I|I]; [discriminate I|]). destruct I.
  - intros a w b w' v' E I. destruct a as [|x [|y [|z a]]]; try discriminate E. 
Qed.
Example conf_example : run_conf [lit "A DEFAULT=b"; lit "# c"; lit "C OVERRIDE=@{PAM_USER} DEFAULT=x"; lit "A DEFAULT=${C}/${A}"] (lit "A") = Some (PAM_SUCCESS, Some (lit "joe/b")).
Proof. vm_compute. reflexivity. Qed.
Example conf_hypotheses_example : exists content ls ok env', lived env0 /\ stored small env0 /\ names_items joe (item_byname joe) /\ ~ In NUL content /\ logical [] (split_lines content) ls ok /\ Forall small ls /\
  ls = [lit "A DEFAULT=b" ++ [c_nl]; lit "C DEFAULT=d" ++ [c_nl]]%list /\ parse_config_file true (fun _ => all_room) joe (Some content) env0 = Ok (PAM_SUCCESS, env') /\ getenv env' (Some (lit "A")) = Ok (Some (lit "b")) /\ ~ names (lit "C DEFAULT=d" ++ [c_nl])%list (lit "A").
Proof.
  exists (lit "A DEFAULT=b" ++ [c_nl] ++ lit "C DEFAULT=d" ++ [c_nl])%list. eexists; exists true; eexists. assert (NN : ~ In NUL (lit "A DEFAULT=b" ++ [c_nl] ++ lit "C DEFAULT=d" ++ [c_nl])%list) by (intro I; vm_compute in I; repeat (destruct I as [I|I]; [discriminate I|]); destruct I).
  split; [apply env0_lived|]. split; [apply env0_lived|]. split; [exact joe_items|]. split; [exact NN|]. split; [apply (conf_logical _ _ _ NN); vm_compute; reflexivity|]. split; [repeat constructor; unfold small; cbn; unfold SIZE_MAX; lia|].
  split; [reflexivity|]. split; [vm_compute; reflexivity|]. split; [vm_compute; reflexivity|]. intros (rest & E & _). discriminate E.
Qed.
Example settings_example : let l := (lit "A DEFAULT=b")%list in tidy l /\ forall env1, (exists n v, name_ok n /\ line_asks env1 (item_byname joe) l (Put (n ++ c_eq :: v))).
Proof.
  cbv zeta. assert (LI : line_is (lit "A DEFAULT=b") (lit "A") [(false, false, lit "b")]).
  { exists (lit " DEFAULT=b"). split; [reflexivity|]. split; [intros c [<-|[]] [X|[X|[X|[]]]]; discriminate X|]. apply (args_cons [c_space] false false (lit "b") (lit "b") []); [discriminate|intros c [<-|[]]; cbn; auto|apply w_plain; [intros c [<-|[]] [X|[X|[X|[]]]]; discriminate X|discriminate]|constructor]. }
  split.
  - intros n l LI'. destruct (line_unique _ _ _ _ _ LI LI') as (<- & <-). intros a w b w' v' E I. destruct a as [|x [|y a]]; try discriminate E.
  - intro env1. exists (lit "A"), (lit "b"). split; [split; [discriminate|intros [X|[]]; discriminate X]|]. apply (la_default _ _ _ _ _ _ (Str (lit "b")) Null (lit "b") None LI).
    + left. exists [], false, (lit "b"), []. split; [reflexivity|]. split; [right; discriminate|]. split; [intros q' v' []|reflexivity].
    + right. split; [|reflexivity]. intros q' v' [I|[]]. discriminate I.
    + constructor. apply yields_plain. reflexivity.
    + constructor.
    + left. reflexivity.
Qed.
Example env_file_example : exists env', parse_env_file true (fun _ => all_room) (conf_of [lit "# x"; lit "export A='b c'"; lit "A-B=x"; lit "D=e"; lit "D"; lit "NONE"]) env0 = Ok (PAM_SUCCESS, env') /\
  getenv env' (Some (lit "A")) = Ok (Some (lit "b c")) /\ getenv env' (Some (lit "D")) = Ok None.
Proof. eexists. split; [vm_compute; reflexivity|]. split; vm_compute; reflexivity. Qed.
Example env_asks_example : env_asks (lit "  export A='b c'" ++ [c_nl])%list (Assign (lit "A") (lit "b c")) /\ ~ asks_for (lit "A-B=x") (lit "A").
Proof.
  split.
  - apply (ea_assign _ _ (c_sq :: lit "b c" ++ [c_sq])%list); [|split; [discriminate|intros c [<-|[]]; left; reflexivity]|apply b_closed; right; reflexivity].
    destruct (env_text (lit "  export A='b c'" ++ [c_nl])%list) as [key|] eqn:E; [|discriminate E]. pose proof (text_body _ _ E) as B. vm_compute in E. injection E as <-. exact B.
  - destruct (env_text (lit "A-B=x")) as [key|] eqn:E; [|discriminate E]. pose proof (text_body _ _ E) as B. vm_compute in E. injection E as <-. assert (K : env_asks (lit "A-B=x") Nothing).
    { apply (ea_none _ _ B). - intros n raw (N & W) X. destruct n as [|a [|b n]]; [contradiction| |]; vm_compute in X; injection X as _ X; [discriminate X|]. subst b. destruct (W "-"%char) as [Y|Y]; [right; left; reflexivity|discriminate Y|discriminate Y].
      - intros (_ & W). destruct (W "-"%char) as [Y|Y]; [vm_compute; auto|discriminate Y|discriminate Y]. }
    intros [(v & A)|A]; discriminate (env_is _ _ _ K A).
Qed.
Definition home_world (drop : bool) : world := mkWorld joe (fun u f => if streq f (lit "/home/joe/.pam_environment") then if u then conf_of [lit "M DEFAULT=1"] else None else if streq f (lit "/etc/environment") then conf_of [lit "E=2"] else conf_of [])
  (fun _ => true) (fun _ => true) (fun _ _ => all_room) drop true true.
Example module_example : (exists env', handle_env (home_world true) [lit "user_readenv=1"] env0 = Ok (PAM_SUCCESS, env', [Open (lit "/etc/security/pam_env.conf"); Open (lit "/etc/environment"); Drop (lit "joe"); Open (lit "/home/joe/.pam_environment"); Regain]) /\
    getenv env' (Some (lit "M")) = Ok (Some (lit "1")) /\ getenv env' (Some (lit "E")) = Ok (Some (lit "2"))) /\
  (exists env', handle_env (home_world false) [lit "user_readenv=1"] env0 = Ok (PAM_SESSION_ERR, env', [Open (lit "/etc/security/pam_env.conf"); Open (lit "/etc/environment")]) /\ getenv env' (Some (lit "M")) = Ok None).
Proof. split; eexists; (split; [vm_compute; reflexivity|]); [split|]; vm_compute; reflexivity. Qed.
Example missing_conf_example : let W := mkWorld joe (fun u f => if streq f (lit "/etc/environment") then conf_of [lit "E=2"] else None) (fun _ => true) (fun _ => true) (fun _ _ => all_room) true true true in
  last_says (says_text (lit "conffile=")) [lit "readenv=1"] None None /\ handle_env W [lit "readenv=1"] env0 = Ok (PAM_IGNORE, env0, [Open (lit "/etc/security/pam_env.conf")]).
Proof. split; [|vm_compute; reflexivity]. right. split; [|reflexivity]. intros y w [<-|[]] (f & E & _). discriminate E. Qed.
Example malformed_example : forall n al, ~ line_is (lit "X DEFAULT") n al.
Proof.
  intros n al LI. destruct (line_meaning all_room (lit "X DEFAULT")) as (r & nm & d & o & P & D). vm_compute in P. injection P as <- _ _ _. destruct D as [(X & _)|[(_ & N)|(X & _)]]; [discriminate X|exact (N _ _ LI)|discriminate X].
Qed.

Print Assumptions expand_meaning.
Print Assumptions line_meaning.
Print Assumptions conf_line_meaning.
Print Assumptions conf_changes_only_named.
Print Assumptions conf_last_line_counts.
Print Assumptions line_asks_one.
Print Assumptions conf_of_settings_succeeds.
Print Assumptions malformed_last_line_aborts.
Print Assumptions env_line_asks_one.
Print Assumptions env_line_meaning.
Print Assumptions env_changes_only_asked.
Print Assumptions env_last_line_counts.
Print Assumptions env_options_meaning.
Print Assumptions files_opened.
Print Assumptions module_changes_only_named.
Print Assumptions missing_conf_skips_all.
Print Assumptions trailing_blank_tolerated_refuted.
Print Assumptions trailing_comment_tolerated_refuted.
Print Assumptions malformed_line_fails_refuted.
Print Assumptions documented_remotehost_refuted.
Print Assumptions order_of_arguments_refuted.
Print Assumptions bare_line_unsets_refuted.
Print Assumptions quoted_hash_kept_refuted.
