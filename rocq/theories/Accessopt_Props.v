(** C52: the options of pam_access and the terminal a login comes from. *)
From Coq Require Import String Ascii List Arith ZArith Bool Lia.
From Verif Require Import Base Num_Model Str_Model Str_Facts Opt_Facts Access_Model.
From Verif Require Flconf_Props.
Import ListNotations.
Local Open Scope Z_scope.

(** ** Spec *)
(** An argument that gives a field separator, a list separator, a table. *)
Definition gives (name : string) (a v : cstr) : Prop := a = (lit name ++ lit "=" ++ v)%list.
(** The terminal without the directory it is in: what stands before the second slash of a full path. *)
Inductive device_of : cstr -> cstr -> Prop :=
| device_relative : forall t, hd NUL t <> c_slash -> device_of t t
| device_top : forall t, ~ In c_slash t -> device_of (c_slash :: t) t
| device_below : forall d t, ~ In c_slash d -> device_of (c_slash :: d ++ c_slash :: t) t.

(** ** Options *)
Definition step (o : opts) (a : cstr) : opts :=
  if is_prefix (lit "fieldsep=") a then mkOpts (skipn 9 a) (o_sep o) (o_file o) (o_new_groups o) (o_nodns o)
  else if is_prefix (lit "listsep=") a then mkOpts (o_fs o) (skipn 8 a) (o_file o) (o_new_groups o) (o_nodns o)
  else if is_prefix (lit "accessfile=") a then mkOpts (o_fs o) (o_sep o) (Some (skipn 11 a)) (o_new_groups o) (o_nodns o)
  else if streq a (lit "nodefgroup") then mkOpts (o_fs o) (o_sep o) (o_file o) true (o_nodns o)
  else if streq a (lit "nodns") then mkOpts (o_fs o) (o_sep o) (o_file o) (o_new_groups o) true
  else o.
Definition refused (readable : cstr -> bool) (a : cstr) : Prop := exists f, gives "accessfile" a f /\ readable f = false.
Lemma pre_iff : forall name a, is_prefix (lit name ++ lit "=") a = true <-> exists v, gives name a v.
Proof. intros name a. rewrite is_prefix_iff. unfold gives. split; intros (x & ->); exists x; rewrite <- ?app_assoc; reflexivity. Qed.
Lemma fold_step : forall readable args o,
  (parse_args readable args o = None <-> exists a, In a args /\ refused readable a) /\
  forall o', parse_args readable args o = Some o' -> o' = fold_left step args o.
Proof.
  intros readable args. induction args as [|a args IH]; intro o.
  - split; [split; [discriminate|intros (a & [] & _)]|]. intros o' E. injection E as <-. reflexivity.
  - assert (GO : ~ refused readable a -> forall x, (parse_args readable args x = None <-> exists b, In b (a :: args) /\ refused readable b)).
    { intros N x. rewrite (proj1 (IH x)). split; intros (b & B & R); exists b; [split; [right; exact B|exact R]|]. destruct B as [<-|B]; [contradiction|auto]. }
    assert (NR : forall p, is_prefix p a = true -> (forall x y, (p ++ x)%list <> (lit "accessfile=" ++ y)%list) -> ~ refused readable a).
    { intros p P D (f & G & _). apply is_prefix_iff in P. destruct P as (x & ->). apply (D x f). rewrite G. reflexivity. }
    cbn [parse_args fold_left]. unfold step at 2. destruct (is_prefix (lit "fieldsep=") a) eqn:E1.
    { split; [apply GO, (NR _ E1); intros; discriminate|]. intros o' E. apply (proj2 (IH _) o' E). }
    destruct (is_prefix (lit "listsep=") a) eqn:E2.
    { split; [apply GO, (NR _ E2); intros; discriminate|]. intros o' E. apply (proj2 (IH _) o' E). }
    destruct (is_prefix (lit "accessfile=") a) eqn:E3.
    { pose proof E3 as P. apply is_prefix_iff in P. destruct P as (f & ->). change (skipn 11 (lit "accessfile=" ++ f)) with f. destruct (readable f) eqn:R.
      - split; [apply GO|intros o' E; apply (proj2 (IH _) o' E)]. intros (g & G & N). assert (g = f) by (symmetry; apply (app_inv_head (lit "accessfile=")); exact G). congruence.
      - split; [|discriminate]. split; [intros _|reflexivity]. eexists. split; [left; reflexivity|]. exists f. split; [reflexivity|exact R]. }
    assert (N : ~ refused readable a) by (intros (f & G & _); assert (X : is_prefix (lit "accessfile=") a = true) by (apply is_prefix_iff; exists f; exact G); congruence).
    destruct (streq a (lit "nodefgroup")); [split; [apply GO, N|intros o' E; apply (proj2 (IH _) o' E)]|].
    destruct (streq a (lit "nodns")); (split; [apply GO, N|intros o' E; apply (proj2 (IH _) o' E)]).
Qed.
Lemma flag_fold : forall (val : opts -> bool) word args o, (forall o a, val (step o a) = (val o || streq a word)) ->
  (val (fold_left step args o) = true <-> val o = true \/ In word args).
Proof.
  intros val word args. induction args as [|a args IH]; intros o H; cbn [fold_left In]; [tauto|]. rewrite (IH _ H), H, orb_true_iff, streq_eq. intuition.
Qed.
(** Without a table that cannot be opened, the last argument of each kind counts; otherwise the module gives up. *)
Theorem access_options : forall readable args,
  (parse_args readable args default_opts = None <-> exists f, In (lit "accessfile=" ++ f)%list args /\ readable f = false) /\
  forall o, parse_args readable args default_opts = Some o ->
    Flconf_Props.latest (gives "fieldsep") args (lit ":") (o_fs o) /\ Flconf_Props.latest (gives "listsep") args (lit ", " ++ [c_tab])%list (o_sep o) /\
    Flconf_Props.latest (fun a v => exists f, v = Some f /\ gives "accessfile" a f) args None (o_file o) /\
    (o_new_groups o = true <-> In (lit "nodefgroup") args) /\ (o_nodns o = true <-> In (lit "nodns") args).
Proof.
  intros readable args. destruct (fold_step readable args default_opts) as (N & S0). split.
  - rewrite N. split; [intros (a & A & f & -> & R); exists f; auto|intros (f & A & R); exists (lit "accessfile=" ++ f)%list; split; [exact A|exists f; split; [reflexivity|exact R]]].
  - intros o E. apply S0 in E. subst o.
    assert (PI : forall n t v, gives n t v -> is_prefix (lit n ++ lit "=") t = true) by (intros n t v G; apply pre_iff; exists v; exact G).
    split; [|split; [|split; [|split]]].
    + apply (Flconf_Props.latest_fold (gives "fieldsep") step o_fs args). intros t a _. unfold step. destruct (is_prefix (lit "fieldsep=") a) eqn:E1.
      * apply is_prefix_iff in E1. destruct E1 as (v & ->). left. reflexivity.
      * right. split; [intros v G; apply PI in G; cbn in G, E1; congruence|]. destruct (is_prefix (lit "listsep=") a), (is_prefix (lit "accessfile=") a), (streq a (lit "nodefgroup")), (streq a (lit "nodns")); reflexivity.
    + apply (Flconf_Props.latest_fold (gives "listsep") step o_sep args). intros t a _. unfold step. destruct (is_prefix (lit "fieldsep=") a) eqn:E1.
      * right. split; [|reflexivity]. intros v G. apply is_prefix_iff in E1. destruct E1 as (x & ->). discriminate.
      * destruct (is_prefix (lit "listsep=") a) eqn:E2; [apply is_prefix_iff in E2; destruct E2 as (v & ->); left; reflexivity|]. right.
        split; [intros v G; apply PI in G; cbn in G, E2; congruence|]. destruct (is_prefix (lit "accessfile=") a), (streq a (lit "nodefgroup")), (streq a (lit "nodns")); reflexivity.
    + apply (Flconf_Props.latest_fold (fun a v => exists f, v = Some f /\ gives "accessfile" a f) step o_file args). intros t a _. unfold step. destruct (is_prefix (lit "fieldsep=") a) eqn:E1.
      * right. split; [|reflexivity]. intros v (f & _ & G). apply is_prefix_iff in E1. destruct E1 as (x & ->). discriminate.
      * destruct (is_prefix (lit "listsep=") a) eqn:E2; [right; split; [|reflexivity]; intros v (f & _ & G); apply is_prefix_iff in E2; destruct E2 as (x & ->); discriminate|].
        destruct (is_prefix (lit "accessfile=") a) eqn:E3; [apply is_prefix_iff in E3; destruct E3 as (v & ->); left; exists v; split; reflexivity|]. right.
        split; [intros v (f & _ & G); apply PI in G; cbn in G, E3; congruence|]. destruct (streq a (lit "nodefgroup")), (streq a (lit "nodns")); reflexivity.
    + rewrite (flag_fold o_new_groups (lit "nodefgroup")); [cbn; intuition discriminate|]. intros o a. unfold step.
      destruct (streq a (lit "nodefgroup")) eqn:E4; [apply streq_eq in E4; subst a; cbn; rewrite orb_true_r; reflexivity|]. rewrite orb_false_r.
      destruct (is_prefix (lit "fieldsep=") a), (is_prefix (lit "listsep=") a), (is_prefix (lit "accessfile=") a), (streq a (lit "nodns")); reflexivity.
    + rewrite (flag_fold o_nodns (lit "nodns")); [cbn; intuition discriminate|]. intros o a. unfold step.
      destruct (streq a (lit "nodns")) eqn:E4; [apply streq_eq in E4; subst a; cbn; rewrite orb_true_r; reflexivity|]. rewrite orb_false_r.
      destruct (is_prefix (lit "fieldsep=") a), (is_prefix (lit "listsep=") a), (is_prefix (lit "accessfile=") a), (streq a (lit "nodefgroup")); reflexivity.
Qed.
(** The account of a user who exists is not judged with another table than the one named. *)
Theorem access_bad_table_aborts : forall y u pw args f rhost tty stdin service, y_pw y u = Some pw -> In (lit "accessfile=" ++ f)%list args -> (forall t, y_file y f <> Contents t) ->
  pam_access y (Some u) args rhost tty stdin service = Ok PAM_ABORT.
Proof.
  intros y u (name, uid) args f rhost tty stdin service P A N. unfold pam_access. rewrite P.
  match goal with |- match ?p with _ => _ end = _ => assert (E : p = None) end.
  { apply access_options. exists f. split; [exact A|]. destruct (y_file y f) eqn:E; try reflexivity. exfalso. exact (N _ eq_refl). }
  rewrite E. reflexivity.
Qed.

(** ** The terminal *)
Lemma device_found : forall t n, device_of t n -> strip_device t = n.
Proof.
  intros t n D. destruct D as [t H|t H|d t H].
  - destruct t as [|c t]; [reflexivity|]. cbn [strip_device hd] in *. destruct (Ascii.eqb_spec c c_slash); [contradiction|reflexivity].
  - cbn [strip_device]. rewrite Ascii.eqb_refl. destruct (split_at c_slash t) as [(x, y)|] eqn:E; [|reflexivity]. apply split_at_some in E. destruct E as (-> & _). exfalso. apply H, in_or_app. right. left. reflexivity.
  - cbn [strip_device]. rewrite Ascii.eqb_refl, (proj2 (split_at_some c_slash (d ++ c_slash :: t) d t)) by auto. reflexivity.
Qed.
(** Without a remote host the login comes from the terminal: that of the application, else that of standard input; else it is named after the service. *)
Theorem local_origin : forall rhost tty stdin service,
  (forall h, rhost = Some h -> h = []) ->
  (forall t n, tty = Some t \/ tty = None /\ (stdin = Some t \/ stdin = None /\ service = Some t) -> device_of t n -> origin rhost tty stdin service = Some (mkItem (Some n) false)) /\
  (origin rhost tty stdin service = None <-> tty = None /\ stdin = None /\ service = None).
Proof.
  intros rhost tty stdin service H. assert (R : rhost = None \/ rhost = Some []) by (destruct rhost as [h|]; [right; rewrite (H h eq_refl); reflexivity|left; reflexivity]).
  split.
  - intros t n T D. apply device_found in D. destruct T as [-> |(-> & [-> |(-> & ->)])]; destruct R as [-> | ->]; cbn [origin]; rewrite D; reflexivity.
  - destruct R as [-> | ->]; cbn [origin]; destruct tty, stdin, service; split; intros X; try discriminate X; try (destruct X as (? & ? & ?); discriminate); auto.
Qed.
Theorem device_total : forall t, exists n, device_of t n /\ forall m, device_of t m -> m = n.
Proof.
  intro t. assert (E : exists n, device_of t n).
  { destruct t as [|c t]; [exists []; constructor; discriminate|]. destruct (Ascii.eqb_spec c c_slash) as [-> |N]; [|eexists; constructor; exact N].
    destruct (split_at c_slash t) as [(x, y)|] eqn:E; [apply split_at_some in E; destruct E as (-> & N); exists y; constructor; exact N|apply split_at_none in E; exists t; constructor; exact E]. }
  destruct E as (n & D). exists n. split; [exact D|]. intros m M. apply device_found in D, M. congruence.
Qed.

(** ** Examples *)
Example access_options_example :
  parse_args (fun _ => true) [lit "fieldsep=|"; lit "accessfile=/a"; lit "nodns"; lit "fieldsep=;"; lit "accessfile=/b"; lit "listsep=,"] default_opts = Some (mkOpts (lit ";") (lit ",") (Some (lit "/b")) false true) /\
  parse_args (fun f => streq f (lit "/b")) [lit "accessfile=/a"; lit "accessfile=/b"] default_opts = None /\
  parse_args (fun _ => false) [lit "nodefgroup"; lit "debug"] default_opts = Some (mkOpts (lit ":") (lit ", " ++ [c_tab]) None true false).
Proof. repeat split. Qed.
Example local_origin_example :
  origin None None (Some (lit "/dev/pts/3")) (Some (lit "su")) = Some (mkItem (Some (lit "pts/3")) false) /\ origin (Some []) (Some (lit "/console")) None None = Some (mkItem (Some (lit "console")) false) /\
  origin None (Some (lit "tty1/x")) None None = Some (mkItem (Some (lit "tty1/x")) false) /\ device_of (lit "/dev/pts/3") (lit "pts/3") /\ device_of (lit "/console") (lit "console").
Proof.
  repeat (split; [reflexivity|]). split; [apply (device_below (lit "dev") (lit "pts/3")); cbn; intuition discriminate|]. apply (device_top (lit "console")). cbn. intuition discriminate.
Qed.
Example access_bad_table_aborts_example :
  let y := mkAsys (fun u => Some (u, 1000)) (fun _ => true) (fun _ => true) (fun _ _ _ => true) None (fun _ _ => None) (fun _ _ => []) (fun _ _ => None) (fun _ => None) (fun _ => false) (fun _ => Missing) None true 0 in
  y_pw y (lit "bob") = Some (lit "bob", 1000) /\ pam_access y (Some (lit "bob")) [lit "accessfile=/none"] (Some (lit "h")) None None None = Ok PAM_ABORT /\ pam_access y (Some (lit "bob")) [] (Some (lit "h")) None None None = Ok PAM_SUCCESS.
Proof. vm_compute. repeat split. Qed.

Print Assumptions access_options.
Print Assumptions access_bad_table_aborts.
Print Assumptions local_origin.
Print Assumptions device_total.
