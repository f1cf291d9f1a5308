(** C103, C104: pam_xauth hands X cookies from the invoking to the target user. *)
From Coq Require Import String Ascii List Arith ZArith Bool Lia.
From Verif Require Import Base Num_Model Str_Model Str_Facts Opt_Model Opt_Facts Flconf_Props Xauth_Model.
Import ListNotations.
Local Open Scope Z_scope.

(** ** Spec *)
(** A name pattern of an access list: a line of it, up to a carriage return or a zero byte if there is one. *)
Definition ends (c : ascii) : Prop := c = chr 13 \/ c = c_nl \/ c = NUL.
Definition listed (t : list ascii) (p : cstr) : Prop := exists before rest, t = (before ++ p ++ rest)%list /\ (before = [] \/ exists b, before = (b ++ [c_nl])%list) /\
  Forall (fun c => ~ ends c) p /\ (p ++ rest)%list <> [] /\ (rest = [] \/ exists c r, rest = c :: r /\ ends c).
(** The owner of an access list agrees to another user; [absent] says whether the owner agrees without a list. The list is read as the owner. *)
Definition agrees (E : env) (K : aclio) (sense owner other : cstr) (absent : Prop) : Prop :=
  exists p, x_byname E owner = Some p /\ l_path K = true /\ l_drop K = true /\ l_regain K = true /\
    ((l_file K (p_uid p) (p_dir p ++ lit "/.xauth/" ++ sense)%list = AclMissing /\ absent) \/
     exists t w, l_file K (p_uid p) (p_dir p ++ lit "/.xauth/" ++ sense)%list = AclText t /\ listed t w /\ x_fnmatch E w other = true).
(** The two users, and that cookies may go from one to the other. *)
Definition parties (E : env) (o : opts) (user : cstr) (r t : pw) : Prop :=
  x_user E = Some user /\ x_byuid E (x_ruid E) = Some r /\ x_byname E user = Some t /\ (p_uid t = 0 \/ p_uid t = o_target o \/ o_system o < p_uid t) /\
  (p_name r = p_name t \/
   agrees E (x_export E) (lit "export") (p_name r) user (x_ruid E <> 0 \/ p_uid t = 0) /\ agrees E (x_import E) (lit "import") user (p_name r) True).
(** The file with the cookies of the invoking user. *)
Definition source (E : env) (r : pw) : cstr := match x_xauthority E with Some f => f | None => (p_dir r ++ lit "/.Xauthority")%list end.
(** The display to ask for: the one of the environment, and for a display of localhost the name of the host. *)
Definition asked (E : env) (display d : cstr) : Prop :=
  d = display \/ exists h l screen, (l = lit "localhost" \/ l = lit "localhost/unix") /\ display = (l ++ ":"%char :: screen)%list /\ x_host E = Some h /\ d = (h ++ lit "/unix:" ++ screen)%list.
Definition reading (E : env) (xauth : cstr) (r : pw) (d : cstr) : command :=
  mkCommand xauth [xauth; lit "-f"; source E r; lit "nlist"; d] None (x_ruid E) (x_rgid E).
Definition writing (xauth cookie path : cstr) (t : pw) : command :=
  mkCommand xauth [xauth; lit "-f"; path; lit "nmerge"; lit "-"] (Some cookie) (p_uid t) (p_gid t).
(** What a program has written, up to a zero byte. *)
Definition output (R : run) : cstr := Str_Model.cut (concat (k_pieces R)).
(** XAUTHORITY in the process after some effects, and the file recorded for the end of the session. *)
Definition variable (old : option cstr) (w : list effect) : option cstr :=
  fold_left (fun v e => match e with ProcEnv x => skip_prefix (lit "XAUTHORITY=") x | Unset => None | _ => v end) w old.
Definition recorded (old : option cstr) (w : list effect) : option cstr := fold_left (fun v e => match e with Kept p => Some p | _ => v end) w old.

(** ** Facts *)
Lemma lines_cut : forall t l, In l (lines_of t) <-> exists before rest, t = (before ++ l ++ rest)%list /\ (before = [] \/ exists b, before = (b ++ [c_nl])%list) /\
  l <> [] /\ ((exists l0, l = (l0 ++ [c_nl])%list /\ ~ In c_nl l0) \/ (~ In c_nl l /\ rest = [])).
Proof.
  assert (D : forall t, (exists l rest, t = (l ++ c_nl :: rest)%list /\ ~ In c_nl l) \/ ~ In c_nl t).
  { induction t as [|c t IH]; [right; intros []|]. destruct (ascii_dec c c_nl) as [->|N]; [left; exists [], t; split; [reflexivity|intros []]|].
    destruct IH as [(l & rest & -> & I)|I]; [left; exists (c :: l), rest; split; [reflexivity|intros [X|X]; auto]|right; intros [X|X]; auto]. }
  intro t. remember (length t) as n eqn:LN. assert (LE : (length t <= n)%nat) by lia. clear LN. revert t LE. induction n as [|n IH]; intros t LE l.
  - destruct t; [|cbn [length] in LE; lia]. split; [intros []|]. intros (b & r & X & _ & N & _). symmetry in X. apply app_eq_nil in X. destruct X as (_ & X). apply app_eq_nil in X. destruct X as (X & _). contradiction.
  - destruct (D t) as [(l1 & rest & -> & N1)|N1].
    + replace (l1 ++ c_nl :: rest)%list with ((l1 ++ [c_nl]) ++ rest)%list by (rewrite <- app_assoc; reflexivity).
      rewrite lines_of_app by (exists l1; auto). rewrite app_length in LE. cbn [length] in LE. specialize (IH rest ltac:(lia) l). cbn [In]. rewrite IH. clear IH. split.
      * intros [<-|(b & r & -> & B & NE & S)].
        -- exists [], rest. split; [reflexivity|]. split; [auto|]. split; [intro X; apply app_eq_nil in X; destruct X; discriminate|]. left. eauto.
        -- exists ((l1 ++ [c_nl]) ++ b)%list, r. split; [rewrite <- !app_assoc; reflexivity|]. split; [|auto]. right. destruct B as [->|(b0 & ->)]; [exists l1; rewrite app_nil_r; reflexivity|].
           exists ((l1 ++ [c_nl]) ++ b0)%list. rewrite app_assoc. reflexivity.
      * intros (b & r & X & B & NE & S). destruct B as [->|(b0 & ->)].
        -- left. cbn [app] in X. destruct S as [(l0 & -> & N0)|(N0 & ->)].
           ++ f_equal. rewrite <- !app_assoc in X. cbn [app] in X. clear -X N0 N1. revert l0 X N0. induction l1 as [|c l1 IH]; intros [|d l0] X N0; cbn [app] in X.
              ** reflexivity.
              ** injection X as X0 X. exfalso. apply N0. left. auto.
              ** injection X as X0 X. exfalso. apply N1. left. auto.
              ** injection X as -> X. f_equal. apply IH; [intro Y; apply N1; right; exact Y|exact X|intro Y; apply N0; right; exact Y].
           ++ exfalso. rewrite app_nil_r in X. apply N0. rewrite <- X. apply in_or_app. left. apply in_or_app. right. left. reflexivity.
        -- right. assert (Y : exists b', (b0 ++ [c_nl] = (l1 ++ [c_nl]) ++ b')%list /\ (b' = [] \/ exists b'', b' = (b'' ++ [c_nl])%list)).
           { rewrite <- !app_assoc in X. cbn [app] in X. clear -X N1. revert l1 X N1. induction b0 as [|c b0 IH]; intros [|d l1] X N1; cbn [app] in X.
             - exists []. auto.
             - injection X as X0 X. exfalso. apply N1. left. auto.
             - injection X as <- X. exists (b0 ++ [c_nl])%list. split; [reflexivity|eauto].
             - injection X as -> X. destruct (IH l1 X ltac:(intro Y; apply N1; right; exact Y)) as (b' & Y1 & Y2). exists b'. split; [cbn [app] in *; f_equal; exact Y1|exact Y2]. }
           destruct Y as (b' & Y1 & Y2). exists b', r. rewrite Y1 in X. rewrite <- (app_assoc (l1 ++ [c_nl])%list) in X. apply app_inv_head in X. auto.
    + rewrite lines_of_tail by exact N1. split.
      * intro I. destruct t as [|c t]; [destruct I|]. destruct I as [<-|[]]. exists [], []. rewrite app_nil_r. split; [reflexivity|]. split; [auto|]. split; [discriminate|]. right. auto.
      * intros (b & r & -> & B & NE & S). destruct B as [->|(b0 & ->)]; [|exfalso; apply N1; apply in_or_app; left; apply in_or_app; right; left; reflexivity].
        destruct S as [(l0 & -> & _)|(_ & ->)]; [exfalso; apply N1; cbn [app]; apply in_or_app; left; apply in_or_app; right; left; reflexivity|].
        rewrite app_nil_r in *. cbn [app] in *. destruct l; [contradiction|left; reflexivity].
Qed.
Lemma pattern_spec : forall l, exists rest, l = (acl_pattern l ++ rest)%list /\ Forall (fun c => ~ ends c) (acl_pattern l) /\ (rest = [] \/ exists c r, rest = c :: r /\ ends c).
Proof.
  intro l. unfold acl_pattern. destruct (cut_prefix l) as (z & L & Z0). pose proof (cut_no_nul l) as NN. destruct (span _ (Str_Model.cut l)) as (a, b) eqn:SP. cbn [fst].
  apply span_app in SP. destruct SP as (S1 & S2 & S3). exists (b ++ z)%list. rewrite S1 in L, NN. split; [rewrite app_assoc; exact L|]. split.
  - apply Forall_forall. intros c I. rewrite forallb_forall in S2. specialize (S2 c I). apply negb_true_iff, orb_false_iff in S2. destruct S2 as (A & B). apply Ascii.eqb_neq in A, B.
    intros [X|[X|X]]; [congruence|congruence|]. subst c. apply NN. apply in_or_app. left. exact I.
  - destruct S3 as [->|(c & b' & -> & S3)].
    + destruct Z0 as [->|(z' & ->)]; [left; reflexivity|right; exists NUL, z'; split; [reflexivity|right; right; reflexivity]].
    + right. exists c, (b' ++ z)%list. split; [reflexivity|]. apply negb_false_iff, orb_true_iff in S3. destruct S3 as [X|X]; apply Ascii.eqb_eq in X; [left|right; left]; exact X.
Qed.
Lemma ends_first : forall p q r s, (p ++ r = q ++ s)%list -> Forall (fun c => ~ ends c) p -> Forall (fun c => ~ ends c) q ->
  (r = [] \/ exists c r', r = c :: r' /\ ends c) -> (s = [] \/ exists c s', s = c :: s' /\ ends c) -> p = q.
Proof.
  induction p as [|c p IH]; intros [|d q] r s X P Q R T; cbn [app] in X.
  - reflexivity.
  - subst r. inversion Q as [|? ? Q1 Q2]; subst. destruct R as [R|(e & r' & R & R1)]; [discriminate|]. injection R as <- <-. contradiction.
  - subst s. inversion P as [|? ? P1 P2]; subst. destruct T as [T|(e & r' & T & T1)]; [discriminate|]. injection T as <- <-. contradiction.
  - injection X as <- X. inversion P; inversion Q; subst. f_equal. eapply IH; eauto.
Qed.
Lemma listed_iff : forall t p, listed t p <-> exists l, In l (lines_of t) /\ acl_pattern l = p.
Proof.
  intros t p. split.
  - intros (b & rest & -> & B & P & NE & R).
    assert (S : exists l r, (p ++ rest = l ++ r)%list /\ l <> [] /\ ((exists l0, l = (l0 ++ [c_nl])%list /\ ~ In c_nl l0) \/ (~ In c_nl l /\ r = [])) /\ exists x, l = (p ++ x)%list /\ (x = [] \/ exists c x', x = c :: x' /\ ends c)).
    { assert (PN : ~ In c_nl p) by (intro I; rewrite Forall_forall in P; apply (P c_nl I); right; left; reflexivity).
      assert (D : (exists u v, rest = (u ++ c_nl :: v)%list /\ ~ In c_nl u) \/ ~ In c_nl rest).
      { clear. induction rest as [|c t IH]; [right; intros []|]. destruct (ascii_dec c c_nl) as [->|N]; [left; exists [], t; split; [reflexivity|intros []]|].
        destruct IH as [(l & r & -> & I)|I]; [left; exists (c :: l), r; split; [reflexivity|intros [X|X]; auto]|right; intros [X|X]; auto]. }
      destruct D as [(u & v & -> & U)|U].
      - exists (p ++ u ++ [c_nl])%list, v. split; [rewrite <- !app_assoc; reflexivity|]. split; [intro X; apply app_eq_nil in X; destruct X as (_ & X); apply app_eq_nil in X; destruct X; discriminate|]. split.
        + left. exists (p ++ u)%list. split; [rewrite app_assoc; reflexivity|]. intro I. apply in_app_or in I. destruct I; auto.
        + exists (u ++ [c_nl])%list. split; [reflexivity|]. right. destruct R as [R|(c & r & R & RE)]; [destruct u; discriminate|]. destruct u as [|d u]; cbn [app] in R |- *; injection R as <- <-; eauto.
      - exists (p ++ rest)%list, []. rewrite app_nil_r. split; [reflexivity|]. split; [exact NE|]. split; [|exists rest; auto]. right. split; [|reflexivity]. intro I. apply in_app_or in I. destruct I; auto. }
    destruct S as (l & r & X & NL & S & x & LX & XE). exists l. split.
    + apply lines_cut. exists b, r. rewrite <- X. auto.
    + destruct (pattern_spec l) as (z & Z1 & Z2 & Z3). apply (ends_first _ _ z x); auto. congruence.
  - intros (l & I & <-). apply lines_cut in I. destruct I as (b & r & -> & B & NE & S). destruct (pattern_spec l) as (z & Z1 & Z2 & Z3).
    exists b, (z ++ r)%list. split; [rewrite Z1 at 1; rewrite <- app_assoc; reflexivity|]. split; [exact B|]. split; [exact Z2|]. split.
    + rewrite app_assoc, <- Z1. intro X. apply app_eq_nil in X. destruct X. contradiction.
    + destruct Z3 as [->|(c & z' & -> & C)]; [|right; exists c, (z' ++ r)%list; auto]. cbn [app]. left. destruct S as [(l0 & L0 & _)|(_ & ->)]; [|reflexivity].
      exfalso. rewrite app_nil_r in Z1. rewrite <- Z1 in Z2. rewrite L0 in Z2. apply Forall_app in Z2. destruct Z2 as (_ & Z2). inversion Z2 as [|? ? Z4 _]. apply Z4. right. left. reflexivity.
Qed.
Lemma check_spec : forall E K sense owner other code (absent : Prop), (code = PAM_SUCCESS <-> absent) ->
  (check_acl E K sense owner other code = PAM_SUCCESS <-> agrees E K sense owner other absent).
Proof.
  intros E K sense owner other code absent C. unfold check_acl, agrees. destruct (x_byname E owner) as [p|]; [|split; [discriminate|intros (p & X & _); discriminate]].
  destruct (l_path K) eqn:A1; cbn [negb]; [|split; [discriminate|intros (q & _ & X & _); discriminate]].
  destruct (l_drop K) eqn:A2; cbn [negb]; [|split; [discriminate|intros (q & _ & _ & X & _); discriminate]].
  destruct (l_regain K) eqn:A3; cbn [negb]; [|split; [discriminate|intros (q & _ & _ & _ & X & _); discriminate]].
  destruct (l_file K (p_uid p) (p_dir p ++ lit "/.xauth/" ++ sense)%list) as [| | |t] eqn:F.
  - rewrite C. split; [intro X; exists p; repeat split; auto|]. intros (q & Q & _ & _ & _ & [(_ & X)|(t & w & X & _)]); [exact X|]. injection Q as <-. congruence.
  - split; [discriminate|]. intros (q & Q & _ & _ & _ & [(X & _)|(t & w & X & _)]); injection Q as <-; congruence.
  - split; [discriminate|]. intros (q & Q & _ & _ & _ & [(X & _)|(t & w & X & _)]); injection Q as <-; congruence.
  - destruct (existsb _ (lines_of t)) eqn:X.
    + split; [intros _|reflexivity]. apply existsb_exists in X. destruct X as (l & L & M). exists p. repeat split; auto. right. exists t, (acl_pattern l). repeat split; auto. apply listed_iff. eauto.
    + split; [discriminate|]. intros (q & Q & _ & _ & _ & [(Y & _)|(t' & w & Y & L & M)]); injection Q as <-; [congruence|]. rewrite F in Y. injection Y as <-. apply listed_iff in L. destruct L as (l & L & <-).
      exfalso. assert (existsb (fun l => x_fnmatch E (acl_pattern l) other) (lines_of t) = true) by (apply existsb_exists; eauto). congruence.
Qed.
(** A program can be run and all it writes can be kept. *)
Definition works (R : run) : Prop := k_pipes R = true /\ k_sig R = true /\ k_fork R = true /\ forall i, (i < length (k_pieces R))%nat -> k_mem R i = true.
Lemma gather_spec : forall mem ps n, (gather mem n ps = Some (concat ps) /\ forall i, (i < length ps)%nat -> mem (n + i)%nat = true) \/ (gather mem n ps = None /\ exists i, (i < length ps)%nat /\ mem (n + i)%nat = false).
Proof.
  intros mem ps. induction ps as [|p ps IH]; intro n; cbn [gather concat length]; [left; split; [reflexivity|lia]|]. destruct (mem n) eqn:M.
  - destruct (IH (S n)) as [(G & A)|(G & i & I & A)]; rewrite G; cbn [option_map].
    + left. split; [reflexivity|]. intros [|i] I; [rewrite Nat.add_0_r; exact M|]. replace (n + S i)%nat with (S n + i)%nat by lia. apply A. lia.
    + right. split; [reflexivity|]. exists (S i). split; [lia|]. replace (n + S i)%nat with (S n + i)%nat by lia. exact A.
  - right. split; [reflexivity|]. exists O. rewrite Nat.add_0_r. split; [lia|exact M].
Qed.
(** What is left of a program that cannot be run. *)
Definition little (c : command) (w : list effect) : Prop := w = [] \/ w = [Ignored] \/ w = [Ran c].
Lemma perform_spec : forall E n c, (works (x_run E n c) /\ perform E n c = (true, output (x_run E n c), [Ran c])) \/ (~ works (x_run E n c) /\ exists w, perform E n c = (false, [], w) /\ little c w).
Proof.
  intros E n c. unfold perform, run_coprocess, works, output, little. set (R := x_run E n c). destruct (k_pipes R); cbn [negb]; [|right; split; [intros (X & _); discriminate|eexists; split; [reflexivity|auto]]].
  destruct (k_sig R); cbn [negb]; [|right; split; [intros (_ & X & _); discriminate|eexists; split; [reflexivity|auto]]].
  destruct (k_fork R); cbn [negb]; [|right; split; [intros (_ & _ & X & _); discriminate|eexists; split; [reflexivity|cbn [app]; auto]]].
  destruct (gather_spec (k_mem R) (k_pieces R) 0) as [(G & A)|(G & i & I & A)]; rewrite G; cbn [Nat.add] in A.
  - left. auto.
  - right. split; [intros (_ & _ & _ & X); rewrite X in A by exact I; discriminate|]. eexists. split; [reflexivity|]. cbn [app]. auto.
Qed.
Definition nonempty (s : cstr) : Prop := s <> [].
(** The effects of reading: programs as the invoking user. *)
Definition reads (E : env) (xauth display : cstr) (r : pw) (w : list effect) : Prop := Forall (fun e => e = Ignored \/ exists d, asked E display d /\ e = Ran (reading E xauth r d)) w.
(** A cookie that was read. *)
Definition found (E : env) (xauth display : cstr) (r : pw) (cookie : cstr) (w : list effect) : Prop :=
  cookie <> [] /\ works (x_run E 0 (reading E xauth r display)) /\
  ((cookie = output (x_run E 0 (reading E xauth r display)) /\ w = [Ran (reading E xauth r display)]) \/
   (output (x_run E 0 (reading E xauth r display)) = [] /\ exists d, asked E display d /\ works (x_run E 1 (reading E xauth r d)) /\ cookie = output (x_run E 1 (reading E xauth r d)) /\
    w = [Ran (reading E xauth r display); Ran (reading E xauth r d)])).
Lemma little_reads : forall E xauth display r d w, asked E display d -> little (reading E xauth r d) w -> reads E xauth display r w.
Proof. intros E xauth display r d w A [->|[->| ->]]; [apply Forall_nil|apply Forall_cons; [auto|apply Forall_nil]|apply Forall_cons; [right; eauto|apply Forall_nil]]. Qed.
Lemma local_asked : forall E display h, is_prefix (lit "localhost:") display || is_prefix (lit "localhost/unix:") display = true -> x_host E = Some h ->
  asked E display (h ++ lit "/unix" ++ snd (span (fun c => negb (Ascii.eqb c ":"%char)) display))%list.
Proof.
  intros E display h P H. right. apply orb_true_iff in P. destruct P as [P|P]; apply is_prefix_spec in P; destruct P as (s & ->).
  - exists h, (lit "localhost"), s. split; [auto|]. split; [reflexivity|]. split; [exact H|]. reflexivity.
  - exists h, (lit "localhost/unix"), s. split; [auto|]. split; [reflexivity|]. split; [exact H|]. reflexivity.
Qed.
Lemma read_spec : forall E xauth display r, let '(c, w) := read_cookie E xauth (source E r) display in reads E xauth display r w /\
  match c with None => ~ works (x_run E 0 (reading E xauth r display)) /\ little (reading E xauth r display) w | Some [] => True | Some cookie => found E xauth display r cookie w end.
Proof.
  intros E xauth display r. unfold read_cookie. fold (reading E xauth r display).
  assert (AD : asked E display display) by (left; reflexivity).
  destruct (perform_spec E 0 (reading E xauth r display)) as [(W & P)|(W & w & P & L)]; rewrite P; cbn [negb].
  2: { split; [eapply little_reads; eauto|auto]. }
  assert (R1 : reads E xauth display r [Ran (reading E xauth r display)]) by (apply Forall_cons; [right; eauto|apply Forall_nil]).
  destruct (output (x_run E 0 (reading E xauth r display))) as [|c0 out] eqn:O.
  2: { split; [exact R1|]. split; [discriminate|]. split; [exact W|]. left. auto. }
  destruct (is_prefix (lit "localhost:") display || is_prefix (lit "localhost/unix:") display) eqn:LP; [|split; [exact R1|exact I]].
  destruct (x_host E) as [h|] eqn:H; [|split; [exact R1|exact I]]. destruct (x_mem E 557); [|split; [exact R1|exact I]].
  pose proof (local_asked E display h LP H) as A2. set (d := (h ++ lit "/unix" ++ snd (span (fun c => negb (Ascii.eqb c ":"%char)) display))%list) in *. clearbody d. fold (reading E xauth r d).
  destruct (perform_spec E 1 (reading E xauth r d)) as [(W2 & P2)|(W2 & w2 & P2 & L2)]; rewrite P2.
  - split; [apply Forall_app; split; [exact R1|apply Forall_cons; [right; eauto|apply Forall_nil]]|]. destruct (output (x_run E 1 (reading E xauth r d))) as [|c0 out] eqn:O2; [exact I|].
    split; [discriminate|]. split; [exact W|]. right. split; [exact O|]. exists d. auto.
  - split; [|exact I]. apply Forall_app. split; [exact R1|eapply little_reads; eauto].
Qed.
(** Cookies handed over: the effects after the reading. *)
Definition path_of (t : pw) (six : cstr) : cstr := (p_dir t ++ lit "/.xauth" ++ six)%list.
Definition handed (E : env) (xauth display cookie : cstr) (t : pw) (path : cstr) (w : list effect) : Prop :=
  (exists six, x_mkstemp E = Some six /\ path = (p_dir t ++ lit "/.xauth" ++ six)%list) /\
  exists last, w = ([Made path (p_uid t) (p_gid t); Kept path; PamEnv (lit "XAUTHORITY=" ++ path)%list; ProcEnv (lit "XAUTHORITY=" ++ path)%list; PamEnv (lit "DISPLAY=" ++ display)%list] ++
      match x_local E with Some v => [PamEnv (lit "XAUTHLOCALHOSTNAME=" ++ v)%list] | None => [] end ++ last)%list /\
    (last = [Ran (writing xauth cookie path t)] \/ ~ works (x_run E 2 (writing xauth cookie path t)) /\ (last = [] \/ last = [Ignored])).
(** What is done on the way to a failure. *)
Definition begun (E : env) (display : cstr) (t : pw) (w : list effect) : Prop :=
  w = [] \/ exists six, x_mkstemp E = Some six /\ let path := (p_dir t ++ lit "/.xauth" ++ six)%list in
    (w = [Made path (p_uid t) (p_gid t)] /\ (x_regain E = false \/ x_mem E 656 = false)) \/ w = [Made path (p_uid t) (p_gid t); Unlinked path (x_euid E)] \/
    exists more, w = [Made path (p_uid t) (p_gid t); Kept path; PamEnv (lit "XAUTHORITY=" ++ path)%list; ProcEnv (lit "XAUTHORITY=" ++ path)%list] ++ more /\ (more = [] \/ more = [PamEnv (lit "DISPLAY=" ++ display)%list]).
Lemma write_spec : forall E xauth display cookie t, let '(r, w) := write_cookie E xauth display cookie t in
  (r = PAM_SUCCESS /\ exists path, handed E xauth display cookie t path w) \/ (r = PAM_SESSION_ERR /\ begun E display t w).
Proof.
  intros E xauth display cookie t. cbv beta iota zeta delta [write_cookie]. destruct (x_mem E 601); cbn [negb]; [|right; split; [reflexivity|left; reflexivity]].
  destruct (x_drop E); cbn [negb]; [|right; split; [reflexivity|left; reflexivity]]. destruct (x_mkstemp E) as [six|] eqn:MK; cbv beta iota.
  2: { destruct (negb (x_regain E)); right; (split; [reflexivity|left; reflexivity]). }
  destruct (x_regain E) eqn:RG; cbn [negb]; [|right; split; [reflexivity|right; exists six; split; [exact MK|left; auto]]].
  destruct (x_mem E 656) eqn:M6; cbn [negb]; [|right; split; [reflexivity|right; exists six; split; [exact MK|left; auto]]].
  destruct (x_data E); cbn [negb]; [|right; split; [reflexivity|right; exists six; split; [exact MK|right; left; reflexivity]]].
  destruct (x_mem E 685); cbn [negb]; [|right; split; [reflexivity|right; exists six; split; [exact MK|right; right; exists []; split; [reflexivity|auto]]]].
  destruct (match x_local E with Some _ => negb (x_mem E 702) | None => false end); [right; split; [reflexivity|right; exists six; split; [exact MK|right; right; eexists; split; [reflexivity|auto]]]|].
  set (path := (p_dir t ++ lit "/.xauth" ++ six)%list) in *. change (mkCommand xauth [xauth; lit "-f"; path; lit "nmerge"; lit "-"] (Some cookie) (p_uid t) (p_gid t)) with (writing xauth cookie path t).
  destruct (perform_spec E 2 (writing xauth cookie path t)) as [(W & P)|(W & w & P & L)]; rewrite P.
  - left. split; [reflexivity|]. exists path. split; [eauto|]. eexists. split; [reflexivity|]. left. reflexivity.
  - left. split; [reflexivity|]. exists path. split; [eauto|]. eexists. split; [reflexivity|]. destruct L as [->|[->| ->]]; auto.
Qed.
Lemma forward_spec : forall E o xauth display, let '(r, w) := forward E o xauth display in
  (r = PAM_SESSION_ERR /\ w = []) \/
  exists user rp t, parties E o user rp t /\
    ((r = PAM_SUCCESS /\ ~ works (x_run E 0 (reading E xauth rp display)) /\ little (reading E xauth rp display) w) \/
     (r = PAM_SESSION_ERR /\ reads E xauth display rp w) \/
     exists cookie w1 w2, w = (w1 ++ w2)%list /\ found E xauth display rp cookie w1 /\ reads E xauth display rp w1 /\
       ((r = PAM_SUCCESS /\ exists path, handed E xauth display cookie t path w2) \/ (r = PAM_SESSION_ERR /\ begun E display t w2))).
Proof.
  intros E o xauth display. unfold forward. destruct (x_user E) as [user|] eqn:U; [|left; auto]. destruct (x_byuid E (x_ruid E)) as [rp|] eqn:RP; [|left; auto].
  destruct (x_byname E user) as [t|] eqn:T; [|left; auto].
  destruct (negb (p_uid t =? 0) && negb (p_uid t =? o_target o) && (p_uid t <=? o_system o)) eqn:SY; [left; auto|].
  assert (EL : p_uid t = 0 \/ p_uid t = o_target o \/ o_system o < p_uid t).
  { destruct (Z.eqb_spec (p_uid t) 0); [auto|]. destruct (Z.eqb_spec (p_uid t) (o_target o)); [auto|]. destruct (Z.leb_spec (p_uid t) (o_system o)); [discriminate|auto]. }
  clear SY. set (code := if negb (x_ruid E =? 0) || (p_uid t =? 0) then PAM_SUCCESS else PAM_PERM_DENIED).
  assert (CODE : code = PAM_SUCCESS <-> x_ruid E <> 0 \/ p_uid t = 0).
  { unfold code. destruct (Z.eqb_spec (x_ruid E) 0); destruct (Z.eqb_spec (p_uid t) 0); cbn [negb orb]; split; intro X; auto; try discriminate; destruct X; contradiction. }
  destruct (negb (streq (p_name rp) (p_name t)) && negb (check_acl E (x_export E) (lit "export") (p_name rp) user code =? PAM_SUCCESS)) eqn:X1; [left; auto|].
  destruct (negb (streq (p_name rp) (p_name t)) && negb (check_acl E (x_import E) (lit "import") user (p_name rp) PAM_SUCCESS =? PAM_SUCCESS)) eqn:X2; [left; auto|].
  destruct (negb (x_mem E match x_xauthority E with Some _ => 509 | None => 514 end)); [left; auto|].
  assert (PA : parties E o user rp t).
  { unfold parties. repeat (split; [assumption|]). destruct (streq (p_name rp) (p_name t)) eqn:SN; [left; apply streq_eq; exact SN|]. cbn [negb andb] in X1, X2. apply negb_false_iff, Z.eqb_eq in X1, X2.
    right. split; [apply (check_spec _ _ _ _ _ _ _ CODE); exact X1|]. apply (check_spec _ _ _ _ _ PAM_SUCCESS True); [tauto|exact X2]. }
  fold (source E rp). pose proof (read_spec E xauth display rp) as RS. destruct (read_cookie E xauth (source E rp) display) as (c, w1). destruct RS as (R1 & RS).
  destruct c as [[|c0 cookie]|]; [right; exists user, rp, t; split; [exact PA|]; right; left; auto| |right; exists user, rp, t; split; [exact PA|]; left; tauto].
  pose proof (write_spec E xauth display (c0 :: cookie) t) as WS. destruct (write_cookie E xauth display (c0 :: cookie) t) as (r2, w2). right. exists user, rp, t. split; [exact PA|]. right. right. exists (c0 :: cookie), w1, w2. auto.
Qed.

(** ** Theorems *)
Definition gives_program (a x : _) : Prop := exists s, x = Some s /\ a = (lit "xauthpath=" ++ s)%list.
(** A number after an option, all of it; taken modulo 2^32 as uid_t. *)
Definition gives_uid (name : cstr) (a : cstr) (x : Z) : Prop := exists s n, a = (name ++ s)%list /\ strtol s = (n, Some []) /\ x = n mod 2 ^ 32.
(** Options: the last one counts; systemuser is 499 and targetuser is 0 if not given. *)
Theorem xauth_options : forall args, latest gives_program args None (o_xauth (parse_args args)) /\ latest (gives_uid (lit "systemuser=")) args 499 (o_system (parse_args args)) /\
  latest (gives_uid (lit "targetuser=")) args 0 (o_target (parse_args args)).
Proof.
  assert (PP : forall t a, parse_arg t a = t /\ (forall s, a <> (lit "xauthpath=" ++ s)%list) /\ (forall s, a <> (lit "systemuser=" ++ s)%list) /\ (forall s, a <> (lit "targetuser=" ++ s)%list) \/
    (exists s, a = (lit "xauthpath=" ++ s)%list /\ parse_arg t a = mkOpts (Some s) (o_system t) (o_target t)) \/
    (exists s, a = (lit "targetuser=" ++ s)%list /\ parse_arg t a = mkOpts (o_xauth t) (o_system t) (uid_value s (o_target t))) \/
    (exists s, a = (lit "systemuser=" ++ s)%list /\ parse_arg t a = mkOpts (o_xauth t) (uid_value s (o_system t)) (o_target t))).
  { intros t a. unfold parse_arg. destruct (streq a (lit "debug")) eqn:E1; [apply streq_eq in E1; subst a; left; repeat split; intros; discriminate|].
    destruct (skip_prefix (lit "xauthpath=") a) as [s|] eqn:E2; [apply skip_prefix_some in E2; right; left; eauto|].
    destruct (skip_prefix (lit "targetuser=") a) as [s|] eqn:E3; [apply skip_prefix_some in E3; right; right; left; eauto|].
    destruct (skip_prefix (lit "systemuser=") a) as [s|] eqn:E4; [apply skip_prefix_some in E4; right; right; right; eauto|].
    left. rewrite skip_prefix_none in E2, E3, E4. split; [reflexivity|]. split; [|split]; intros s X; [apply E2|apply E4|apply E3]; eauto. }
  assert (UV : forall name s old, (exists x, gives_uid name (name ++ s)%list x /\ uid_value s old = x) \/ ((forall x, ~ gives_uid name (name ++ s)%list x) /\ uid_value s old = old)).
  { intros name s old. unfold uid_value. destruct (strtol s) as (n, e) eqn:ST. destruct e as [[|c e]|].
    - left. exists (n mod 2 ^ 32). split; [exists s, n; auto|reflexivity].
    - right. split; [|reflexivity]. intros x (s' & n' & X & Y & _). apply app_inv_head in X. subst s'. congruence.
    - right. split; [|reflexivity]. intros x (s' & n' & X & Y & _). apply app_inv_head in X. subst s'. congruence. }
  intro args. unfold parse_args. split; [|split].
  - apply (latest_fold gives_program parse_arg o_xauth args) with (t := mkOpts None 499 0). intros t a _. destruct (PP t a) as [(-> & N & _)|[(s & -> & ->)|[(s & -> & ->)|(s & -> & ->)]]].
    + right. split; [intros y (s & _ & X); apply (N s X)|reflexivity].
    + left. exists s. split; [reflexivity|reflexivity].
    + right. split; [intros y (s' & _ & X); discriminate|reflexivity].
    + right. split; [intros y (s' & _ & X); discriminate|reflexivity].
  - apply (latest_fold (gives_uid (lit "systemuser=")) parse_arg o_system args) with (t := mkOpts None 499 0). intros t a _. destruct (PP t a) as [(-> & _ & N & _)|[(s & -> & ->)|[(s & -> & ->)|(s & -> & ->)]]]; cbn [o_system].
    + right. split; [intros y (s & n & X & _); apply (N s X)|reflexivity].
    + right. split; [intros y (s' & n & X & _); discriminate|reflexivity].
    + right. split; [intros y (s' & n & X & _); discriminate|reflexivity].
    + destruct (UV (lit "systemuser=") s (o_system t)) as [(x & X & Y)|(X & Y)]; rewrite Y; [left; exact X|right; auto].
  - apply (latest_fold (gives_uid (lit "targetuser=")) parse_arg o_target args) with (t := mkOpts None 499 0). intros t a _. destruct (PP t a) as [(-> & _ & _ & N)|[(s & -> & ->)|[(s & -> & ->)|(s & -> & ->)]]]; cbn [o_target].
    + right. split; [intros y (s & n & X & _); apply (N s X)|reflexivity].
    + right. split; [intros y (s' & n & X & _); discriminate|reflexivity].
    + destruct (UV (lit "targetuser=") s (o_target t)) as [(x & X & Y)|(X & Y)]; rewrite Y; [left; exact X|right; auto].
    + right. split; [intros y (s' & n & X & _); discriminate|reflexivity].
Qed.
(** The program: given, or the first of three that may be executed. *)
Definition program (E : env) (o : opts) (x : cstr) : Prop := o_xauth o = Some x \/
  o_xauth o = None /\ exists a b, [lit "/usr/X11R6/bin/xauth"; lit "/usr/bin/xauth"; lit "/usr/bin/X11/xauth"] = (a ++ x :: b)%list /\ x_access E x = true /\ Forall (fun y => x_access E y = false) a.
Lemma find_first : forall (f : cstr -> bool) l x, find f l = Some x -> exists a b, l = (a ++ x :: b)%list /\ f x = true /\ Forall (fun y => f y = false) a.
Proof.
  intros f l x. induction l as [|y l IH]; cbn [find]; [discriminate|]. destruct (f y) eqn:Y; [intro X; injection X as <-; exists [], l; auto|]. intro X. destruct (IH X) as (a & b & -> & F & A). exists (y :: a), b. auto.
Qed.
Lemma open_spec : forall E args, let '(r, w) := open_session E args in let o := parse_args args in
  (r = PAM_SUCCESS /\ w = [] /\ ((forall x, ~ program E o x) \/ x_display E = None)) \/
  exists xauth display, program E o xauth /\ x_display E = Some display /\ fst (forward E o xauth display) = r /\
    (w = snd (forward E o xauth display) /\ (r = PAM_SUCCESS \/ x_xauthority E = None /\ (forall v, ~ In (ProcEnv v) w)) \/ w = (snd (forward E o xauth display) ++ [Unset])%list /\ r <> PAM_SUCCESS).
Proof.
  intros E args. unfold open_session. set (o := parse_args args). clearbody o. unfold find_xauth. 
  destruct (match o_xauth o with Some x => Some x | None => find (x_access E) xauthpaths end) as [xauth|] eqn:FX.
  2: { left. split; [reflexivity|]. split; [reflexivity|]. left. intros x [X|(X & a & b & L & A & _)]; [rewrite X in FX; discriminate|]. rewrite X in FX.
       pose proof (find_none _ _ FX x) as N. rewrite N in A; [discriminate|]. change xauthpaths with [lit "/usr/X11R6/bin/xauth"; lit "/usr/bin/xauth"; lit "/usr/bin/X11/xauth"]. rewrite L. apply in_or_app. right. left. reflexivity. }
  assert (PR : program E o xauth).
  { unfold program. destruct (o_xauth o) as [x|]; [left; congruence|right]. split; [reflexivity|]. apply find_first in FX. exact FX. }
  destruct (x_display E) as [display|]; [|left; auto]. destruct (forward E o xauth display) as (r, w) eqn:FW. right. exists xauth, display. rewrite FW. cbn [fst snd].
  split; [exact PR|]. split; [reflexivity|]. split; [reflexivity|]. destruct (Z.eqb_spec r PAM_SUCCESS) as [S|S]; cbn [negb andb]; [left; auto|]. destruct (x_xauthority E); [right; auto|].
  destruct (existsb _ w) eqn:X; [right; auto|]. left. split; [reflexivity|]. right. split; [reflexivity|]. intros v I. assert (Y : existsb (fun e => match e with ProcEnv _ => true | _ => false end) w = true) by (apply existsb_exists; eauto). congruence.
Qed.
(** What may happen once both users agree. *)
Lemma effects_spec : forall E o xauth display w, snd (forward E o xauth display) = w -> w = [] \/ exists user rp t, parties E o user rp t /\
  Forall (fun e => match e with
    | Ran c => (exists d, asked E display d /\ c = reading E xauth rp d) \/
        exists n d cookie path, asked E display d /\ In (Ran (reading E xauth rp d)) w /\ cookie = output (x_run E n (reading E xauth rp d)) /\ cookie <> [] /\ In (Made path (p_uid t) (p_gid t)) w /\ c = writing xauth cookie path t
    | Made path u g => u = p_uid t /\ g = p_gid t /\ exists six, x_mkstemp E = Some six /\ path = (p_dir t ++ lit "/.xauth" ++ six)%list
    | Kept path => In (Made path (p_uid t) (p_gid t)) w
    | Unlinked path u => In (Made path (p_uid t) (p_gid t)) w /\ u = x_euid E
    | PamEnv v => (exists path, In (Made path (p_uid t) (p_gid t)) w /\ v = (lit "XAUTHORITY=" ++ path)%list) \/ v = (lit "DISPLAY=" ++ display)%list \/ exists l, x_local E = Some l /\ v = (lit "XAUTHLOCALHOSTNAME=" ++ l)%list
    | ProcEnv v => exists path, In (Made path (p_uid t) (p_gid t)) w /\ v = (lit "XAUTHORITY=" ++ path)%list
    | Ignored => True
    | Unset => False end) w.
Proof.
  intros E o xauth display w W. pose proof (forward_spec E o xauth display) as F. destruct (forward E o xauth display) as (r, w'). cbn [snd] in W. subst w'.
  destruct F as [(_ & ->)|(user & rp & t & PA & F)]; [left; reflexivity|]. right. exists user, rp, t. split; [exact PA|].
  destruct F as [(_ & _ & L)|[(_ & R)|(cookie & w1 & w2 & -> & FD & R & F)]].
  - destruct L as [->|[->| ->]]; [apply Forall_nil|apply Forall_cons; [exact I|apply Forall_nil]|apply Forall_cons; [left; exists display; split; [left; reflexivity|reflexivity]|apply Forall_nil]].
  - eapply Forall_impl; [|exact R]. intros e [->|(d & A & ->)]; [exact I|left; eauto].
  - apply Forall_app. split; [eapply Forall_impl; [|exact R]; intros e [->|(d & A & ->)]; [exact I|left; eauto]|].
    assert (CK : exists n d, asked E display d /\ In (Ran (reading E xauth rp d)) w1 /\ cookie = output (x_run E n (reading E xauth rp d)) /\ cookie <> []).
    { destruct FD as (NE & _ & [(C & ->)|(_ & d & A & _ & C & ->)]); [exists 0%nat, display|exists 1%nat, d]; repeat split; auto; try (left; reflexivity). right. left. reflexivity. }
    destruct F as [(_ & path & (six & MK & P) & last & -> & LA)|(_ & [->|(six & MK & F)])]; [| apply Forall_nil|].
    + assert (MI : forall l, In (Made path (p_uid t) (p_gid t)) (w1 ++ [Made path (p_uid t) (p_gid t); Kept path; PamEnv (lit "XAUTHORITY=" ++ path)%list; ProcEnv (lit "XAUTHORITY=" ++ path)%list; PamEnv (lit "DISPLAY=" ++ display)%list] ++ l)%list).
      { intro l. apply in_or_app. right. left. reflexivity. }
      set (rest := (match x_local E with Some v => [PamEnv (lit "XAUTHLOCALHOSTNAME=" ++ v)%list] | None => [] end ++ last)%list) in *. specialize (MI rest).
      set (W := (w1 ++ [Made path (p_uid t) (p_gid t); Kept path; PamEnv (lit "XAUTHORITY=" ++ path)%list; ProcEnv (lit "XAUTHORITY=" ++ path)%list; PamEnv (lit "DISPLAY=" ++ display)%list] ++ rest)%list) in *.
      assert (IW : forall e, In e w1 -> In e W) by (intros e X; apply in_or_app; left; exact X). clearbody W.
      apply Forall_app. split.
      * apply Forall_cons; [split; [reflexivity|split; [reflexivity|eauto]]|]. apply Forall_cons; [exact MI|]. apply Forall_cons; [left; eauto|]. apply Forall_cons; [eauto|]. apply Forall_cons; [right; left; reflexivity|apply Forall_nil].
      * unfold rest. apply Forall_app. split.
        -- destruct (x_local E) as [l|] eqn:XL; [apply Forall_cons; [right; right; eauto|apply Forall_nil]|apply Forall_nil].
        -- destruct LA as [->|(_ & [->| ->])]; [|apply Forall_nil|apply Forall_cons; [exact I|apply Forall_nil]]. apply Forall_cons; [|apply Forall_nil]. right. destruct CK as (n & d & C1 & C2 & C3 & C4). exists n, d, cookie, path. repeat (split; [auto|]). reflexivity.
    + cbv zeta in F. set (path := (p_dir t ++ lit "/.xauth" ++ six)%list) in *. assert (MI : In (Made path (p_uid t) (p_gid t)) (w1 ++ w2)%list).
      { apply in_or_app. right. destruct F as [(-> & _)|[->|(more & -> & _)]]; left; reflexivity. }
      set (W := (w1 ++ w2)%list) in *. clearbody W. assert (MM : p_uid t = p_uid t /\ p_gid t = p_gid t /\ exists six0, x_mkstemp E = Some six0 /\ path = (p_dir t ++ lit "/.xauth" ++ six0)%list) by eauto.
      destruct F as [(-> & _)|[->|(more & -> & M)]].
      * apply Forall_cons; [exact MM|apply Forall_nil].
      * apply Forall_cons; [exact MM|]. apply Forall_cons; [auto|apply Forall_nil].
      * apply Forall_app. split; [apply Forall_cons; [exact MM|]; apply Forall_cons; [exact MI|]; apply Forall_cons; [left; eauto|]; apply Forall_cons; [eauto|apply Forall_nil]|].
        destruct M as [->| ->]; [apply Forall_nil|apply Forall_cons; [right; left; reflexivity|apply Forall_nil]].
Qed.
(** Nothing is done, except that XAUTHORITY can be taken from the environment, unless both users agree. A program is run either as the invoking user, to read the cookies
    of one display from this user's file, or as the target user, to write what was read to the new file. The new file is made as the target user in the home
    directory of this user. *)
Theorem xauth_consent : forall E args r w e, open_session E args = (r, w) -> In e w -> e <> Unset ->
  exists xauth display user rp t, program E (parse_args args) xauth /\ x_display E = Some display /\ parties E (parse_args args) user rp t /\
  match e with
  | Ran c => (exists d, asked E display d /\ c = reading E xauth rp d) \/
      exists n d cookie path, asked E display d /\ In (Ran (reading E xauth rp d)) w /\ cookie = output (x_run E n (reading E xauth rp d)) /\ cookie <> [] /\ In (Made path (p_uid t) (p_gid t)) w /\ c = writing xauth cookie path t
  | Made path u g => u = p_uid t /\ g = p_gid t /\ exists six, x_mkstemp E = Some six /\ path = (p_dir t ++ lit "/.xauth" ++ six)%list
  | Kept path => In (Made path (p_uid t) (p_gid t)) w
  | Unlinked path u => In (Made path (p_uid t) (p_gid t)) w
  | PamEnv v => (exists path, In (Made path (p_uid t) (p_gid t)) w /\ v = (lit "XAUTHORITY=" ++ path)%list) \/ v = (lit "DISPLAY=" ++ display)%list \/ exists l, x_local E = Some l /\ v = (lit "XAUTHLOCALHOSTNAME=" ++ l)%list
  | ProcEnv v => exists path, In (Made path (p_uid t) (p_gid t)) w /\ v = (lit "XAUTHORITY=" ++ path)%list
  | Ignored | Unset => True
  end.
Proof.
  intros E args r w e H I NU. pose proof (open_spec E args) as O. rewrite H in O. cbv zeta in O. destruct O as [(_ & -> & _)|(xauth & display & PR & D & _ & O)]; [destruct I|].
  exists xauth, display. pose proof (effects_spec E (parse_args args) xauth display _ eq_refl) as F. set (w0 := snd (forward E (parse_args args) xauth display)) in *. clearbody w0.
  assert (I0 : In e w0) by (destruct O as [(-> & _)|(-> & _)]; [exact I|apply in_app_or in I; destruct I as [I|[I|[]]]; [exact I|congruence]]).
  assert (UP : forall x, In x w0 -> In x w) by (intros x X; destruct O as [(-> & _)|(-> & _)]; [exact X|apply in_or_app; left; exact X]).
  destruct F as [->|(user & rp & t & PA & F)]; [destruct I0|]. exists user, rp, t. split; [exact PR|]. split; [exact D|]. split; [exact PA|]. rewrite Forall_forall in F. specialize (F e I0).
  destruct e as [c| |path u g|path u|path|v|v|].
  - destruct F as [F|(n & d & cookie & path & F1 & F2 & F3 & F4 & F5 & F6)]; [left; exact F|]. right. exists n, d, cookie, path. auto 10.
  - exact Logic.I.
  - exact F.
  - apply UP, F.
  - apply UP, F.
  - destruct F as [(path & F1 & F2)|F]; [left; eauto|right; exact F].
  - destruct F as (path & F1 & F2). eauto.
  - contradiction.
Qed.
(** Success. Either nothing can be handed over: no program, no display, or the program cannot be run. Or the cookies that were read go to a new file that is
    recorded for the end of the session, and XAUTHORITY and DISPLAY are set. *)
Theorem xauth_success : forall E args w, open_session E args = (PAM_SUCCESS, w) -> let o := parse_args args in
  (w = [] /\ ((forall x, ~ program E o x) \/ x_display E = None)) \/
  exists xauth display user rp t, program E o xauth /\ x_display E = Some display /\ parties E o user rp t /\
    ((~ works (x_run E 0 (reading E xauth rp display)) /\ little (reading E xauth rp display) w) \/
     exists cookie path w1 w2, w = (w1 ++ w2)%list /\ found E xauth display rp cookie w1 /\ handed E xauth display cookie t path w2).
Proof.
  intros E args w H. cbv zeta. pose proof (open_spec E args) as O. rewrite H in O. cbv zeta in O. destruct O as [(_ & -> & O)|(xauth & display & PR & D & R & O)]; [left; auto|]. right.
  destruct O as [(-> & _)|(_ & O)]; [|contradiction]. exists xauth, display. pose proof (forward_spec E (parse_args args) xauth display) as F. destruct (forward E (parse_args args) xauth display) as (r, w). cbn [fst snd] in *. subst r.
  destruct F as [(X & _)|(user & rp & t & PA & F)]; [discriminate|]. exists user, rp, t. split; [exact PR|]. split; [exact D|]. split; [exact PA|].
  destruct F as [(_ & F)|[(X & _)|(cookie & w1 & w2 & -> & FD & _ & F)]]; [left; exact F|discriminate|]. right. destruct F as [(_ & path & F)|(X & _)]; [|discriminate]. exists cookie, path, w1, w2. auto.
Qed.
Lemma variable_app : forall v a b, variable v (a ++ b) = variable (variable v a) b.
Proof. intros. unfold variable. apply fold_left_app. Qed.
Lemma variable_same : forall w v, (forall x, ~ In (ProcEnv x) w) -> ~ In Unset w -> variable v w = v.
Proof.
  induction w as [|e w IH]; intros v P U; [reflexivity|]. change (e :: w) with ([e] ++ w)%list. rewrite variable_app, IH by (intros; intro X; first [apply (P x)|apply U]; right; exact X).
  destruct e; try reflexivity; exfalso; [eapply P; left; reflexivity|apply U; left; reflexivity].
Qed.
Lemma reads_same : forall E xauth display r w, reads E xauth display r w -> forall v x, variable v w = v /\ recorded x w = x.
Proof.
  intros E xauth display r w F. induction F as [|e w [->|(d & _ & ->)] F IH]; intros v x; [auto| |]; apply (IH v x).
Qed.
(** The variable XAUTHORITY of the process. After a failure there is none. After success it is what it was, and no file was made, or it names the new file. *)
Theorem xauth_variable : forall E args r w old, open_session E args = (r, w) ->
  (r = PAM_SESSION_ERR /\ variable (x_xauthority E) w = None) \/
  (r = PAM_SUCCESS /\ ((variable (x_xauthority E) w = x_xauthority E /\ recorded old w = old /\ forall path u g, ~ In (Made path u g) w) \/
     exists path u g, variable (x_xauthority E) w = Some path /\ recorded old w = Some path /\ forall path' u' g', In (Made path' u' g') w <-> (path', u', g') = (path, u, g))).
Proof.
  intros E args r w old H. pose proof (open_spec E args) as O. rewrite H in O. cbv zeta in O. destruct (Z.eq_dec r PAM_SUCCESS) as [->|N].
  - right. split; [reflexivity|]. destruct (xauth_success _ _ _ H) as [(-> & _)|(xauth & display & user & rp & t & _ & _ & _ & [(_ & L)|(cookie & path & w1 & w2 & -> & FD & HD)])]; [left; auto| |right].
    + left. destruct L as [->|[->| ->]]; (split; [reflexivity|split; [reflexivity|]]); intros path u g X; repeat (destruct X as [X|X]; [discriminate|]); destruct X.
    + assert (W1 : Forall (fun e => exists c, e = Ran c) w1).
      { destruct FD as (_ & _ & [(_ & ->)|(_ & d & _ & _ & _ & ->)]); repeat (apply Forall_cons; [eauto|]); apply Forall_nil. }
      assert (V1 : forall v x, variable v w1 = v /\ recorded x w1 = x). { clear -W1. induction W1 as [|e w (c & ->) F IH]; intros v x; [auto|apply (IH v x)]. }
      assert (M1 : forall p u g, ~ In (Made p u g) w1) by (intros p u g X; rewrite Forall_forall in W1; destruct (W1 _ X); discriminate). clear FD W1.
      destruct HD as (_ & last & -> & LA). exists path, (p_uid t), (p_gid t). set (tl := (match x_local E with Some v => [PamEnv (lit "XAUTHLOCALHOSTNAME=" ++ v)%list] | None => [] end ++ last)%list).
      assert (T : Forall (fun e => (exists v, e = PamEnv v) \/ (exists c, e = Ran c) \/ e = Ignored) tl).
      { unfold tl. apply Forall_app. split; [destruct (x_local E); [apply Forall_cons; [eauto|apply Forall_nil]|apply Forall_nil]|].
        destruct LA as [->|(_ & [->| ->])]; [apply Forall_cons; [eauto|apply Forall_nil]|apply Forall_nil|apply Forall_cons; [auto|apply Forall_nil]]. }
      assert (T1 : forall v x, variable v tl = v /\ recorded x tl = x). { clear -T. induction T as [|e w [(y & ->)|[(y & ->)| ->]] F IH]; intros v x; [auto|apply (IH v x)|apply (IH v x)|apply (IH v x)]. }
      assert (T2 : forall p u g, ~ In (Made p u g) tl) by (intros p u g X; rewrite Forall_forall in T; destruct (T _ X) as [(? & Y)|[(? & Y)|Y]]; discriminate). clearbody tl.
      unfold recorded in *. rewrite !variable_app, !fold_left_app, !(proj1 (V1 _ None)), !(proj2 (V1 None _)), !(proj1 (T1 _ None)), !(proj2 (T1 None _)). split; [|split; [reflexivity|]].
      * cbn [variable fold_left]. reflexivity.
      * intros p u g. split.
        -- intro X. apply in_app_or in X. destruct X as [X|X]; [destruct (M1 _ _ _ X)|]. apply in_app_or in X. destruct X as [X|X]; [|destruct (T2 _ _ _ X)]. destruct X as [X|X]; [congruence|]. repeat (destruct X as [X|X]; [discriminate|]). destruct X.
        -- intro X. injection X as -> -> ->. apply in_or_app. right. left. reflexivity.
  - left. destruct O as [(X & _)|(xauth & display & _ & _ & R & O)]; [contradiction|]. split.
    + pose proof (forward_spec E (parse_args args) xauth display) as F. destruct (forward E (parse_args args) xauth display) as (r0, w0). cbn [fst] in R. subst r0.
      destruct F as [(X & _)|(user & rp & t & _ & [(X & _)|[(X & _)|(cookie & w1 & w2 & _ & _ & _ & [(X & _)|(X & _)])]])]; auto; contradiction.
    + destruct O as [(W & [X|(X & P)])|(W & _)]; [contradiction| |rewrite W, variable_app; reflexivity]. rewrite X. apply variable_same; [exact P|]. intro U. rewrite W in U.
      destruct (effects_spec E (parse_args args) xauth display _ eq_refl) as [Y|(user & rp & t & _ & Y)]; [rewrite Y in U; destruct U|]. rewrite Forall_forall in Y. apply (Y _ U).
Qed.
Lemma check_refuse : forall E K sense owner other code (absent : Prop), (code = PAM_SUCCESS <-> absent) -> agrees E K sense owner other absent -> (check_acl E K sense owner other code =? PAM_SUCCESS) = true.
Proof. intros E K sense owner other code absent C A. apply Z.eqb_eq. apply (check_spec _ _ _ _ _ _ _ C). exact A. Qed.
(** Everything that can fail besides the programs. *)
Definition well (E : env) : Prop := (forall n, x_mem E n = true) /\ x_drop E = true /\ x_regain E = true /\ x_mkstemp E <> None /\ x_data E = true.
(** If both users agree, nothing fails and there is a cookie for the display, the cookie is handed over. *)
Theorem xauth_forwards : forall E args xauth display user rp t, program E (parse_args args) xauth -> x_display E = Some display -> parties E (parse_args args) user rp t -> well E ->
  works (x_run E 0 (reading E xauth rp display)) -> output (x_run E 0 (reading E xauth rp display)) <> [] ->
  exists path w, open_session E args = (PAM_SUCCESS, Ran (reading E xauth rp display) :: w) /\ handed E xauth display (output (x_run E 0 (reading E xauth rp display))) t path w.
Proof.
  intros E args xauth display user rp t PR D PA (WM & WD & WR & WK & WS) W O. unfold open_session. set (o := parse_args args) in *. clearbody o.
  assert (FX : find_xauth E o = Some xauth).
  { unfold find_xauth. destruct PR as [->|(-> & a & b & L & A & N)]; [reflexivity|]. change xauthpaths with [lit "/usr/X11R6/bin/xauth"; lit "/usr/bin/xauth"; lit "/usr/bin/X11/xauth"]. rewrite L. clear L.
    induction N as [|y a Y N IH]; cbn [app find]; [rewrite A; reflexivity|rewrite Y; exact IH]. }
  rewrite FX, D. destruct PA as (P1 & P2 & P3 & P4 & P5). assert (FW : exists path w, forward E o xauth display = (PAM_SUCCESS, Ran (reading E xauth rp display) :: w) /\ handed E xauth display (output (x_run E 0 (reading E xauth rp display))) t path w).
  { unfold forward. rewrite P1, P2, P3.
    assert (SY : negb (p_uid t =? 0) && negb (p_uid t =? o_target o) && (p_uid t <=? o_system o) = false).
    { destruct P4 as [X|[X|X]]; [rewrite X; reflexivity|rewrite X, Z.eqb_refl, andb_false_r; reflexivity|rewrite (proj2 (Z.leb_gt _ _) X), andb_false_r; reflexivity]. }
    rewrite SY. set (code := if negb (x_ruid E =? 0) || (p_uid t =? 0) then PAM_SUCCESS else PAM_PERM_DENIED).
    assert (CODE : code = PAM_SUCCESS <-> x_ruid E <> 0 \/ p_uid t = 0).
    { unfold code. destruct (Z.eqb_spec (x_ruid E) 0); destruct (Z.eqb_spec (p_uid t) 0); cbn [negb orb]; split; intro X; auto; try discriminate; destruct X; contradiction. }
    assert (AC : negb (streq (p_name rp) (p_name t)) && negb (check_acl E (x_export E) (lit "export") (p_name rp) user code =? PAM_SUCCESS) = false /\
                 negb (streq (p_name rp) (p_name t)) && negb (check_acl E (x_import E) (lit "import") user (p_name rp) PAM_SUCCESS =? PAM_SUCCESS) = false).
    { destruct P5 as [X|(X & Y)]; [rewrite X, streq_refl; auto|]. rewrite (check_refuse _ _ _ _ _ _ _ CODE X), (check_refuse _ _ _ _ _ PAM_SUCCESS True ltac:(tauto) Y). cbn [negb]. rewrite andb_false_r. auto. }
    destruct AC as (-> & ->). rewrite WM. cbn [negb]. fold (source E rp). unfold read_cookie. fold (reading E xauth rp display).
    destruct (perform_spec E 0 (reading E xauth rp display)) as [(_ & P)|(X & _)]; [|contradiction]. rewrite P. cbn [negb]. destruct (output (x_run E 0 (reading E xauth rp display))) as [|c0 cookie]; [contradiction|].
    pose proof (write_spec E xauth display (c0 :: cookie) t) as S. destruct (write_cookie E xauth display (c0 :: cookie) t) as (r2, w2) eqn:WC. destruct S as [(-> & path & S)|(-> & _)]; [exists path, w2; auto|]. exfalso. clear -WC WM WD WR WK WS.
    cbv beta iota zeta delta [write_cookie] in WC. rewrite !WM, WD, WR, WS in WC. destruct (x_mkstemp E); [|contradiction]. cbn [negb] in WC. destruct (x_local E); destruct (perform E 2 _) as ((? & ?) & ?); discriminate. }
  destruct FW as (path & w & -> & HD). exists path, w. cbn [Z.eqb negb andb]. auto.
Qed.
(** If they do not agree, or one is not known, the result is an error and nothing is done. *)
Theorem xauth_refuses : forall E args xauth display, program E (parse_args args) xauth -> x_display E = Some display -> (forall user rp t, ~ parties E (parse_args args) user rp t) ->
  exists w, open_session E args = (PAM_SESSION_ERR, w) /\ (w = [] \/ w = [Unset]).
Proof.
  intros E args xauth display PR D N. destruct (open_session E args) as (r, w) eqn:H. pose proof (open_spec E args) as O. rewrite H in O. cbv zeta in O. destruct O as [(_ & _ & [X|X])|(xauth' & display' & _ & _ & R & O)]; [destruct (X _ PR)|congruence|].
  pose proof (forward_spec E (parse_args args) xauth' display') as F. destruct (forward E (parse_args args) xauth' display') as (r0, w0). cbn [fst snd] in *. subst r0. destruct F as [(-> & ->)|(user & rp & t & PA & _)]; [|destruct (N _ _ _ PA)].
  exists w. split; [reflexivity|]. destruct O as [(-> & _)|(-> & _)]; auto.
Qed.
(** A file that was made is recorded or removed, unless privileges or memory are lacking right after it was made. *)
Theorem xauth_file_kept : forall E args r w path u g, open_session E args = (r, w) -> In (Made path u g) w -> x_regain E = true -> x_mem E 656 = true ->
  In (Kept path) w \/ In (Unlinked path (x_euid E)) w.
Proof.
  intros E args r w path u g H I RG M. pose proof (open_spec E args) as O. rewrite H in O. cbv zeta in O. destruct O as [(_ & -> & _)|(xauth & display & _ & _ & _ & O)]; [destruct I|].
  pose proof (forward_spec E (parse_args args) xauth display) as F. destruct (forward E (parse_args args) xauth display) as (r0, w0). cbn [fst snd] in *.
  assert (UP : forall x, In x w0 -> In x w) by (intros x X; destruct O as [(-> & _)|(-> & _)]; [exact X|apply in_or_app; left; exact X]).
  assert (I0 : In (Made path u g) w0) by (destruct O as [(-> & _)|(-> & _)]; [exact I|apply in_app_or in I; destruct I as [I|[I|[]]]; [exact I|discriminate]]). clear O I.
  assert (RD : forall rp w1, reads E xauth display rp w1 -> ~ In (Made path u g) w1).
  { intros rp w1 R X. unfold reads in R. rewrite Forall_forall in R. destruct (R _ X) as [Y|(d & _ & Y)]; discriminate. }
  destruct F as [(_ & ->)|(user & rp & t & _ & [(_ & _ & L)|[(_ & R)|(cookie & w1 & w2 & -> & _ & R & F)]])].
  - destruct I0.
  - destruct L as [->|[->| ->]]; repeat (destruct I0 as [I0|I0]; [discriminate|]); destruct I0.
  - destruct (RD _ _ R I0).
  - apply in_app_or in I0. destruct I0 as [I0|I0]; [destruct (RD _ _ R I0)|]. assert (G : In (Kept path) w2 \/ In (Unlinked path (x_euid E)) w2); [|destruct G; [left|right]; apply UP, in_or_app; right; assumption].
    destruct F as [(_ & p & _ & last & -> & LA)|(_ & [->|(six & MK & F)])].
    + left. assert (p = path); [|subst p; right; left; reflexivity]. apply in_app_or in I0. destruct I0 as [I0|I0]; [destruct I0 as [I0|I0]; [congruence|]; repeat (destruct I0 as [I0|I0]; [discriminate|]); destruct I0|].
      apply in_app_or in I0. destruct I0 as [I0|I0]; [destruct (x_local E); [destruct I0 as [I0|I0]; [discriminate|]|]; destruct I0|]. destruct LA as [->|(_ & [->| ->])]; repeat (destruct I0 as [I0|I0]; [discriminate|]); destruct I0.
    + destruct I0.
    + cbv zeta in F. set (p := (p_dir t ++ lit "/.xauth" ++ six)%list) in *. clearbody p. destruct F as [(_ & [X|X])|[->|(more & -> & MO)]]; [congruence|congruence| |].
      * destruct I0 as [I0|[I0|[]]]; [|discriminate]. injection I0 as -> _ _. right. right. left. reflexivity.
      * left. apply in_app_or in I0. destruct I0 as [I0|I0]; [|destruct MO as [->| ->]; repeat (destruct I0 as [I0|I0]; [discriminate|]); destruct I0]. destruct I0 as [I0|I0]; [injection I0 as -> _ _; right; left; reflexivity|]. repeat (destruct I0 as [I0|I0]; [discriminate|]). destruct I0.
Qed.
(** The end of the session: nothing without a recorded file. Otherwise this file and nothing else is removed, as the target user. *)
Theorem xauth_closes : forall E data, (data = None -> close_session E data = (PAM_SUCCESS, [])) /\
  forall path, data = Some path ->
    (forall e, In e (snd (close_session E data)) -> exists user t, x_user E = Some user /\ x_byname E user = Some t /\ e = Unlinked path (p_uid t)) /\
    (fst (close_session E data) = PAM_SUCCESS <-> (exists user t, x_user E = Some user /\ x_byname E user = Some t) /\ x_drop E = true /\ x_regain E = true) /\
    (fst (close_session E data) = PAM_SUCCESS -> exists user t, x_user E = Some user /\ x_byname E user = Some t /\ snd (close_session E data) = [Unlinked path (p_uid t)]).
Proof.
  intros E data. split; [intros ->; reflexivity|]. intros path ->. unfold close_session. destruct (x_user E) as [user|]; [|split; [intros e []|split; [split; [discriminate|intros ((u & t & X & _) & _); discriminate]|discriminate]]].
  destruct (x_byname E user) as [t|] eqn:T; [|split; [intros e []|split; [split; [discriminate|intros ((u & t & X & Y) & _); congruence]|discriminate]]].
  destruct (x_drop E); cbn [negb]; [|split; [intros e []|split; [split; [discriminate|intros (_ & X & _); discriminate]|discriminate]]]. cbn [fst snd]. split; [intros e [<-|[]]; eauto|].
  destruct (x_regain E); (split; [split; [try discriminate; eauto 10|intros (_ & _ & X); first [discriminate|reflexivity]]|try discriminate; eauto]).
Qed.
(** The file of a session is removed at its end. *)
Theorem xauth_removed : forall E args w old E' path u g, open_session E args = (PAM_SUCCESS, w) -> In (Made path u g) w ->
  x_user E' = x_user E -> (forall n, x_byname E' n = x_byname E n) -> x_drop E' = true -> snd (close_session E' (recorded old w)) = [Unlinked path u].
Proof.
  intros E args w old E' path u g H I U B D. destruct (xauth_variable E args _ w old H) as [(X & _)|(_ & [(_ & _ & X)|(p & u0 & g0 & _ & R & X)])]; [discriminate|destruct (X _ _ _ I)|].
  apply X in I. injection I as -> -> ->. rewrite R. assert (M : In (Made p u0 g0) w) by (apply X; reflexivity).
  destruct (xauth_consent E args _ w _ H M ltac:(discriminate)) as (xauth & display & user & rp & t & _ & _ & (P1 & _ & P3 & _) & -> & _). unfold close_session. rewrite U, P1, B, P3, D. reflexivity.
Qed.

(** ** Examples and what does not hold *)
Definition alice : pw := mkPw (lit "alice") 1000 1000 (lit "/home/alice").
Definition bob : pw := mkPw (lit "bob") 1001 1001 (lit "/home/bob").
Definition fine (pieces : list (list ascii)) : run := mkRun true true true pieces (fun _ => true).
Definition access_list (t : aclfile) : aclio := mkAclio true true true (fun _ _ => t).
(** alice becomes bob, with a display of localhost; the cookies are listed under the name of the host. *)
Definition usual (ex im : aclfile) (mem : Z -> bool) (regain data : bool) (six : cstr) (runs : nat -> run) : env :=
  mkEnv (fun p => streq p (lit "/usr/bin/xauth")) (Some (lit "localhost:10.0")) None None (Some (lit "bob")) 1000 0 1000 (fun u => if u =? 1000 then Some alice else None)
    (fun n => if streq n (lit "bob") then Some bob else if streq n (lit "alice") then Some alice else None) streq (access_list ex) (access_list im) (Some (lit "h")) mem true regain (Some six) data (fun n _ => runs n).
Definition good_runs (n : nat) : run := match n with O => fine [] | 1%nat => fine [lit "00"; lit "ff"] | _ => fine [] end.
Definition good := usual AclMissing (AclText (lit "carol" ++ [chr 13; c_nl] ++ lit "alice")%list) (fun _ => true) true true (lit "abcdef") good_runs.
Example xauth_success_example : open_session good [] = (PAM_SUCCESS, [Ran (reading good (lit "/usr/bin/xauth") alice (lit "localhost:10.0")); Ran (reading good (lit "/usr/bin/xauth") alice (lit "h/unix:10.0"));
  Made (lit "/home/bob/.xauthabcdef") 1001 1001; Kept (lit "/home/bob/.xauthabcdef"); PamEnv (lit "XAUTHORITY=/home/bob/.xauthabcdef"); ProcEnv (lit "XAUTHORITY=/home/bob/.xauthabcdef"); PamEnv (lit "DISPLAY=localhost:10.0");
  Ran (writing (lit "/usr/bin/xauth") (lit "00ff") (lit "/home/bob/.xauthabcdef") bob)]).
Proof. reflexivity. Qed.
Example xauth_close_example : close_session good (recorded None (snd (open_session good []))) = (PAM_SUCCESS, [Unlinked (lit "/home/bob/.xauthabcdef") 1001]).
Proof. reflexivity. Qed.
Example xauth_listed_example : listed (lit "carol" ++ [chr 13; c_nl] ++ lit "alice")%list (lit "alice") /\ ~ listed (lit "carol" ++ [chr 13; c_nl] ++ lit "alice")%list (lit "ice").
Proof. split; [apply listed_iff; exists (lit "alice"); split; [right; left|]; reflexivity|]. intro L. apply listed_iff in L. destruct L as (l & [<-|[<-|[]]] & X); discriminate. Qed.
Example xauth_parties_example : parties good (parse_args []) (lit "bob") alice bob.
Proof.
  repeat (split; [reflexivity|]). split; [right; right; reflexivity|]. right. split.
  - exists alice. repeat (split; [reflexivity|]). left. split; [reflexivity|left; discriminate].
  - exists bob. repeat (split; [reflexivity|]). right. exists (lit "carol" ++ [chr 13; c_nl] ++ lit "alice")%list, (lit "alice"). split; [reflexivity|]. split; [apply xauth_listed_example|reflexivity].
Qed.
Example xauth_refuses_example : open_session (usual AclMissing (AclText (lit "carol")) (fun _ => true) true true (lit "abcdef") good_runs) [] = (PAM_SESSION_ERR, []).
Proof. reflexivity. Qed.
Example xauth_forwards_example : exists E, well E /\ works (x_run E 0 (reading E (lit "/usr/bin/xauth") alice (lit "localhost:10.0"))) /\ output (x_run E 0 (reading E (lit "/usr/bin/xauth") alice (lit "localhost:10.0"))) = lit "00" /\
  parties E (parse_args [lit "systemuser=1000"]) (lit "bob") alice bob /\ program E (parse_args [lit "systemuser=1000"]) (lit "/usr/bin/xauth").
Proof.
  exists (usual AclMissing AclMissing (fun _ => true) true true (lit "abcdef") (fun _ => fine [lit "00"])). split; [repeat split; discriminate|]. split; [repeat split|]. split; [reflexivity|]. split.
  - repeat (split; [reflexivity|]). split; [right; right; reflexivity|]. right. split; [exists alice|exists bob]; repeat (split; [reflexivity|]); left; (split; [reflexivity|]); [left; discriminate|exact I].
  - right. split; [reflexivity|]. exists [lit "/usr/X11R6/bin/xauth"], [lit "/usr/bin/X11/xauth"]. repeat split. apply Forall_cons; [reflexivity|apply Forall_nil].
Qed.
Example xauth_options_example : parse_args [lit "systemuser=100"; lit "debug"; lit "targetuser=7x"; lit "xauthpath=/x"; lit "systemuser=-1"] = mkOpts (Some (lit "/x")) 4294967295 0.
Proof. reflexivity. Qed.
Example xauth_file_kept_example : open_session (usual AclMissing AclMissing (fun _ => true) true false (lit "abcdef") good_runs) [] = (PAM_SESSION_ERR, snd (open_session (usual AclMissing AclMissing (fun _ => true) true false (lit "abcdef") good_runs) [])) /\
  In (Unlinked (lit "/home/bob/.xauthabcdef") 0) (snd (open_session (usual AclMissing AclMissing (fun _ => true) true false (lit "abcdef") good_runs) [])).
Proof. split; [reflexivity|]. right. right. right. left. reflexivity. Qed.
(** Success though there was a display, a program and both users agree, but no cookie was handed over: the program could not be run. *)
Theorem xauth_handed_refuted : exists E args user rp t, parties E (parse_args args) user rp t /\ program E (parse_args args) (lit "/usr/bin/xauth") /\ x_display E <> None /\ open_session E args = (PAM_SUCCESS, [Ignored]).
Proof.
  exists (usual AclMissing AclMissing (fun _ => true) true true (lit "abcdef") (fun _ => mkRun true true false [] (fun _ => true))), [], (lit "bob"), alice, bob. split; [|split; [|split; [discriminate|reflexivity]]].
  - repeat (split; [reflexivity|]). split; [right; right; reflexivity|]. right. split; [exists alice|exists bob]; repeat (split; [reflexivity|]); left; (split; [reflexivity|]); [left; discriminate|exact I].
  - right. split; [reflexivity|]. exists [lit "/usr/X11R6/bin/xauth"], [lit "/usr/bin/X11/xauth"]. repeat split. apply Forall_cons; [reflexivity|apply Forall_nil].
Qed.
(** Success with an empty file: the writing program could not be run. XAUTHORITY names a file without cookies. *)
Theorem xauth_written_refuted : exists E args w path, open_session E args = (PAM_SUCCESS, w) /\ variable (x_xauthority E) w = Some path /\ forall c, In (Ran c) w -> c_input c = None.
Proof.
  exists (usual AclMissing AclMissing (fun _ => true) true true (lit "abcdef") (fun n => match n with 2%nat => mkRun true true false [] (fun _ => true) | _ => good_runs n end)), []. eexists. exists (lit "/home/bob/.xauthabcdef").
  split; [reflexivity|]. split; [reflexivity|]. intros c I. repeat (destruct I as [I|I]; [first [discriminate|injection I as <-; reflexivity]|]). destruct I.
Qed.
(** A failure can leave a file in the home directory of the target user that is neither recorded nor removed. *)
Theorem xauth_file_left_refuted : exists E args w, open_session E args = (PAM_SESSION_ERR, w) /\ In (Made (lit "/home/bob/.xauthabcdef") 1001 1001) w /\ recorded None w = None /\ forall p u, ~ In (Unlinked p u) w.
Proof.
  exists (usual AclMissing AclMissing (fun n => negb (n =? 656)) true true (lit "abcdef") good_runs), []. eexists. split; [reflexivity|]. split; [right; right; left; reflexivity|]. split; [reflexivity|].
  intros p u I. repeat (destruct I as [I|I]; [discriminate|]). destruct I.
Qed.
(** What is done in the home directory of the target user is not always done as this user: the file is removed with the privileges of the process. *)
Theorem xauth_unlink_as_user_refuted : exists E args w path, open_session E args = (PAM_SESSION_ERR, w) /\ In (Made path 1001 1001) w /\ In (Unlinked path 0) w.
Proof. exists (usual AclMissing AclMissing (fun _ => true) true false (lit "abcdef") good_runs), []. eexists. exists (lit "/home/bob/.xauthabcdef"). split; [reflexivity|]. split; [right; right; left|right; right; right; left]; reflexivity. Qed.
(** After a failure the variables of the PAM environment still name the file. *)
Theorem xauth_pamenv_refuted : exists E args w, open_session E args = (PAM_SESSION_ERR, w) /\ In (PamEnv (lit "XAUTHORITY=/home/bob/.xauthabcdef")) w.
Proof. exists (usual AclMissing AclMissing (fun n => negb (n =? 685)) true true (lit "abcdef") good_runs), []. eexists. split; [reflexivity|]. right. right. right. right. left. reflexivity. Qed.
(** Two sessions on one handle: the file of the first is not removed at the end. *)
Theorem xauth_two_sessions_refuted : exists E1 E2 w1 w2, open_session E1 [] = (PAM_SUCCESS, w1) /\ open_session E2 [] = (PAM_SUCCESS, w2) /\ In (Made (lit "/home/bob/.xauthabcdef") 1001 1001) w1 /\
  close_session E2 (recorded (recorded None w1) w2) = (PAM_SUCCESS, [Unlinked (lit "/home/bob/.xauthuvwxyz") 1001]).
Proof.
  exists (usual AclMissing AclMissing (fun _ => true) true true (lit "abcdef") good_runs), (usual AclMissing AclMissing (fun _ => true) true true (lit "uvwxyz") good_runs). eexists. eexists. split; [reflexivity|]. split; [reflexivity|]. split; [right; right; left; reflexivity|reflexivity].
Qed.

Print Assumptions xauth_options.
Print Assumptions xauth_consent.
Print Assumptions xauth_success.
Print Assumptions xauth_variable.
Print Assumptions xauth_forwards.
Print Assumptions xauth_refuses.
Print Assumptions xauth_file_kept.
Print Assumptions xauth_closes.
Print Assumptions xauth_removed.
Print Assumptions xauth_handed_refuted.
Print Assumptions xauth_written_refuted.
Print Assumptions xauth_file_left_refuted.
Print Assumptions xauth_unlink_as_user_refuted.
Print Assumptions xauth_pamenv_refuted.
Print Assumptions xauth_two_sessions_refuted.
