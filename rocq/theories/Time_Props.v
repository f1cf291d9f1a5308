(** C37, pam_time: logic lists, wildcards, time ranges, files of rules; C50, pam_group. *)
From Coq Require Import String Ascii List Arith NArith ZArith Bool Lia.
From Verif Require Import Base Time_Model Time_Spec Time_Proofs.
Import ListNotations.
Local Open Scope nat_scope.

(** ** Logic lists *)
(** A well-formed list has its left-to-right value, however it is spaced. *)
Theorem logic_list_value : forall agrees m x l, tokens x = logic_tokens l ->
  (forall n r, In n (logic_names l) -> forallb in_name n = true -> begins in_name r = false -> agrees (n ++ r)%list (length n) = Ok (m n)) ->
  logic_field agrees x = Ok (logic_value m l).
Proof.
  intros agrees m x l Ht Ha. rewrite (logic_field_ev agrees m); rewrite Ht; [rewrite ev_value; reflexivity|].
  intros n r Hi Hc Hr. apply Ha; [apply logic_names_tokens; exact Hi| |exact Hr].
  rewrite forallb_forall in *. intros c I. rewrite in_name_eq. apply Hc, I.
Qed.
(** An operator missing between terms makes the list false. *)
Theorem missing_operator_is_false : forall agrees m x l t ts, tokens x = (logic_tokens l ++ t :: ts)%list ->
  match t with TName _ => True | TOper c => c = "!"%char end ->
  (forall n r, In (TName n) (tokens x) -> forallb in_name n = true -> begins in_name r = false -> agrees (n ++ r)%list (length n) = Ok (m n)) ->
  logic_field agrees x = Ok false.
Proof.
  intros agrees m x l t ts Ht Hn Ha. rewrite (logic_field_ev agrees m).
  - rewrite Ht. destruct (ev_logic m l (t :: ts)) as (no & o & E). rewrite E. cbn [ev]. destruct t as [n|c]; [reflexivity|]. subst c. reflexivity.
  - intros n r Hi Hc Hr. apply Ha; [exact Hi| |exact Hr]. rewrite forallb_forall in *. intros c I. rewrite in_name_eq. apply Hc, I.
Qed.
(** A missing operand too, except at the end of the list, where the operator does not count. *)
Theorem missing_operand_is_false : forall agrees m x l a k b ts, tokens x = (logic_tokens l ++ TOper (if (a : bool) then "&" else "|")%char :: repeat (TOper "!"%char) k ++ TOper (if (b : bool) then "&" else "|")%char :: ts)%list ->
  (forall n r, In (TName n) (tokens x) -> forallb in_name n = true -> begins in_name r = false -> agrees (n ++ r)%list (length n) = Ok (m n)) ->
  logic_field agrees x = Ok false.
Proof.
  intros agrees m x l a k b ts Ht Ha. rewrite (logic_field_ev agrees m).
  - rewrite Ht. destruct (ev_logic m l (TOper (if a then "&" else "|")%char :: repeat (TOper "!"%char) k ++ TOper (if b then "&" else "|")%char :: ts)%list) as (no & o & E). rewrite E.
    cbn [ev]. destruct a; cbn [Ascii.eqb Bool.eqb]; rewrite ev_nots; destruct b; reflexivity.
  - intros n r Hi Hc Hr. apply Ha; [exact Hi| |exact Hr]. rewrite forallb_forall in *. intros c I. rewrite in_name_eq. apply Hc, I.
Qed.
Theorem trailing_operator_ignored : forall agrees m x l a k, tokens x = (logic_tokens l ++ TOper (if (a : bool) then "&" else "|")%char :: repeat (TOper "!"%char) k)%list ->
  (forall n r, In (TName n) (tokens x) -> forallb in_name n = true -> begins in_name r = false -> agrees (n ++ r)%list (length n) = Ok (m n)) ->
  logic_field agrees x = Ok (logic_value m l).
Proof.
  intros agrees m x l a k Ht Ha. rewrite (logic_field_ev agrees m).
  - rewrite Ht. destruct (ev_logic m l (TOper (if a then "&" else "|")%char :: repeat (TOper "!"%char) k)%list) as (no & o & E). rewrite E.
    rewrite <- (app_nil_r (repeat _ k)). cbn [ev]. destruct a; cbn [Ascii.eqb Bool.eqb]; rewrite ev_nots; reflexivity.
  - intros n r Hi Hc Hr. apply Ha; [exact Hi| |exact Hr]. rewrite forallb_forall in *. intros c I. rewrite in_name_eq. apply Hc, I.
Qed.

Definition tty_list : logic := mkLogic (mkTerm 0 (lit "tty*")) [(true, mkTerm 1 (lit "ttyp*"))].
Example logic_list_example :
  tokens (lit " tty* & ! ttyp*") = logic_tokens tty_list /\
  logic_field (is_same (lit "tty1")) (lit "tty* & !ttyp*") = Ok true /\ logic_field (is_same (lit "ttyp1")) (lit "tty* & !ttyp*") = Ok false /\
  (* left to right: (a | b) & c *)
  logic_field (is_same (lit "a")) (lit "a|b&c") = Ok false /\
  logic_field (is_same (lit "a")) (lit "a b") = Ok false /\ logic_field (is_same (lit "a")) (lit "a||a") = Ok false /\ logic_field (is_same (lit "a")) (lit "a|") = Ok true.
Proof. vm_compute. auto 10. Qed.

(** ** Wildcards *)
Theorem name_comparison : forall a n r, ~ In NUL n -> ~ In "*"%char a -> comparable a n -> is_same a (n ++ r)%list (length n) = Ok (fits a n).
Proof. exact is_same_fits. Qed.
(** What [fits] says, for one wildcard. *)
Theorem wildcard_meaning : forall a b name, ~ In "*"%char a -> (length a + length b <= length name)%nat ->
  fits name (a ++ "*"%char :: b)%list = true <-> exists mid, name = (a ++ mid ++ b)%list.
Proof.
  intros a b name Ha Hl. unfold fits.
  assert (E : split_star (a ++ "*"%char :: b)%list = Some (a, b)).
  { clear Hl. induction a as [|c a IH]; [reflexivity|]. cbn [app split_star].
    replace (Ascii.eqb c "*"%char) with false by (symmetry; apply Ascii.eqb_neq; intros ->; apply Ha; left; reflexivity).
    rewrite IH; [reflexivity|]. intro I; apply Ha; right; exact I. }
  rewrite E, andb_true_iff, is_prefix_spec, is_suffix_spec. split.
  - intros [[r Hr] [s Hs]]. subst name. pose proof (f_equal (@length ascii) Hs) as L. unfold cstr in *. rewrite app_length in Hl. rewrite !app_length in L.
    exists (firstn (length r - length b) r). f_equal. rewrite <- (firstn_skipn (length r - length b) r) at 1. f_equal.
    rewrite <- (firstn_skipn (length r - length b) r), app_assoc in Hs.
    apply (f_equal (skipn (length s))) in Hs. rewrite (skipn_app (length s) s), skipn_all, Nat.sub_diag in Hs. cbn [skipn app] in Hs.
    rewrite skipn_app, (skipn_all2 (a ++ _)%list) in Hs by (rewrite app_length, firstn_length; lia).
    replace (length s - length (a ++ firstn (length r - length b) r)) with 0 in Hs by (rewrite app_length, firstn_length; lia). exact Hs.
  - intros [mid ->]. split; [exists (mid ++ b)%list; reflexivity|exists (a ++ mid)%list; rewrite app_assoc; reflexivity].
Qed.

(** The documented "begins with .. and ends with .." is not a match of two separate parts when the name is short, and is undefined when
    what follows the wildcard is longer than the name. *)
Theorem wildcard_overlap_refuted : exists a b name, is_same name (a ++ "*"%char :: b)%list (length (a ++ "*"%char :: b)) = Ok true /\ forall mid, name <> (a ++ mid ++ b)%list.
Proof.
  exists (lit "ab"), (lit "bc"), (lit "abc"). split; [reflexivity|]. intros mid E.
  apply (f_equal (@length ascii)) in E. rewrite !app_length in E. change (length (lit "abc")) with 3 in E. change (length (lit "ab")) with 2 in E. change (length (lit "bc")) with 2 in E. lia.
Qed.
Theorem wildcard_defined_refuted : exists name pattern, is_same name pattern (length pattern) = UB.
Proof. exists (lit "tt"), (lit "*tty"). reflexivity. Qed.
Example name_comparison_example : ~ In NUL (lit "tty*") /\ ~ In "*"%char (lit "tty12") /\ comparable (lit "tty12") (lit "tty*2") /\
  is_same (lit "tty12") (lit "tty*2&x") 5 = Ok true /\ is_same (lit "tty13") (lit "tty*2&x") 5 = Ok false /\ is_same (lit "login") (lit "log") 3 = Ok false /\
  fits (lit "tty12") (lit "tty" ++ "*"%char :: lit "2")%list = true.
Proof. repeat split; try reflexivity; try (cbn; intuition discriminate). vm_compute. intros _. lia. Qed.

(** ** Times *)
(** A range admits exactly the documented minutes. *)
Theorem range_admits : forall d hour minute n rg r, (d < 7)%nat -> parse_range n = Some rg -> begins in_name r = false ->
  check_time (time_now d hour minute) (n ++ r)%list (length n) = in_range d (hour * 100 + minute)%Z rg.
Proof. intros d hour minute n rg r. apply check_time_range. Qed.
(** In one day the second time is excluded, over midnight it is included. *)
Theorem range_end_alike_refuted : exists d hour minute n1 n2, (d < 7)%nat /\
  check_time (time_now d hour minute) n1 (length n1) = false /\ check_time (time_now d hour minute) n2 (length n2) = true /\
  (exists r1 r2, parse_range n1 = Some r1 /\ parse_range n2 = Some r2 /\ r_to r1 = (hour * 100 + minute)%Z /\ r_to r2 = (hour * 100 + minute)%Z).
Proof.
  exists 2, 8%Z, 0%Z, (lit "Tu0700-0800"), (lit "Mo2200-0800"). split; [lia|]. split; [reflexivity|]. split; [reflexivity|].
  eexists; eexists; split; [reflexivity|]. split; [reflexivity|]. split; reflexivity.
Qed.
(** A range with a bad time (here only three digits at the end) admits every minute of every day. *)
Theorem bad_time_admits_nothing_refuted : exists n, parse_range n = None /\ forall d hour minute, check_time (time_now d hour minute) n (length n) = true.
Proof. exists (lit "Mo0800-170"). split; reflexivity. Qed.
Example range_example :
  parse_range (lit "MoWk1800-0800") = Some (mkRange [[1]; [1;2;3;4;5]] 1800 800) /\
  in_range 1 1900 (mkRange [[1]; [1;2;3;4;5]] 1800 800) = false /\ in_range 2 1900 (mkRange [[1]; [1;2;3;4;5]] 1800 800) = true /\
  in_range 6 759 (mkRange [[1]; [1;2;3;4;5]] 1800 800) = true /\ in_range 6 801 (mkRange [[1]; [1;2;3;4;5]] 1800 800) = false /\
  check_time (time_now 6 7 59) (lit "MoWk1800-0800 | Al0000-2400") 13 = true.
Proof. vm_compute. auto 10. Qed.

(** ** Files *)
(** Access is denied exactly when a rule for the service, terminal and user is outside its times. *)
Theorem time_file_decides : forall q ls ms, asker_ok q -> time_file ls ms -> Forall (line_ok 4) ls -> Forall (meaning_ok q) ms ->
  time_account (mkWho (a_service q) (a_tty q) (a_user q) (a_net q)) (mkWhen (N.shiftl 1 (N.of_nat (a_day q))) (a_hm q)) (Some (mkFile (file_text ls) false)) =
  Ok (if existsb (fun m => applies q m && negb (times_match q m)) ms then PAM_PERM_DENIED else PAM_SUCCESS).
Proof.
  intros q ls ms Hq Ht Hl Hm. unfold time_account. cbn [data].
  apply (time_rules_file q Hq (Some (mkFile (file_text ls) false)) ls ms Ht Hl Hm); [split; reflexivity|lia].
Qed.
(** The same for the module's entry point. *)
Theorem pam_time_decides : forall q tty service user ls ms stdin set, asker_ok q -> time_file ls ms -> Forall (line_ok 4) ls -> Forall (meaning_ok q) ms ->
  a_service q = service -> a_tty q = tty_name tty -> a_user q = user -> user <> [] ->
  time_acct_mgmt (Some service) (PAM_SUCCESS, user) (Some tty) stdin set (a_net q) (mkWhen (N.shiftl 1 (N.of_nat (a_day q))) (a_hm q)) (Some (mkFile (file_text ls) false)) =
  Ok (if existsb (fun m => applies q m && negb (times_match q m)) ms then PAM_PERM_DENIED else PAM_SUCCESS).
Proof.
  intros q tty service user ls ms stdin set Hq Ht Hl Hm E1 E2 E3 Hu. unfold time_acct_mgmt. change (negb (PAM_SUCCESS =? PAM_SUCCESS)%Z) with false. cbn [orb].
  destruct user as [|c user]; [congruence|]. rewrite <- E1, <- E2, <- E3. apply time_file_decides; assumption.
Qed.
(** The terminal's name: /dev/ and the like is taken off, only at the beginning. *)
Theorem tty_name_meaning : forall a b, ~ In c_slash a -> tty_name (c_slash :: a ++ c_slash :: b)%list = b /\ tty_name (c_slash :: a) = a /\ (a <> [] -> tty_name (a ++ c_slash :: b)%list = (a ++ c_slash :: b)%list).
Proof.
  intros a b H. unfold tty_name. change (Ascii.eqb c_slash c_slash) with true. cbv iota.
  assert (A : after_slash (a ++ c_slash :: b)%list = Some b /\ after_slash a = None).
  { clear -H. induction a as [|c a IH]; [split; reflexivity|]. cbn [app after_slash].
    replace (Ascii.eqb c c_slash) with false by (symmetry; apply Ascii.eqb_neq; intros ->; apply H; left; reflexivity).
    apply IH. intro I; apply H; right; exact I. }
  destruct A as [-> ->]. repeat split. intro N. destruct a as [|c a]; [congruence|]. cbn [app].
  replace (Ascii.eqb c c_slash) with false by (symmetry; apply Ascii.eqb_neq; intros ->; apply H; left; reflexivity). reflexivity.
Qed.

(** The example of the manual page. *)
Definition as_raw (s : string) : raw := map Ch (lit s).
Definition conf : list line :=
  [Empty [] (Some (lit " games are for the evening; and weekends"));
   Rule [as_raw "games "; as_raw " * "; as_raw " !waster "] (map Ch (lit " Wd0000-2400 | ") ++ Continued :: map Ch (lit "Wk1800-0800"))%list (Some (lit "x"));
   Empty (as_raw "  ") None;
   Rule [as_raw "login"; as_raw "tty*&!ttyp*"; as_raw "@night"] (as_raw "!Al0000-2400") None].
Definition conf_means : list meaning :=
  [mkMeaning (mkLogic (mkTerm 0 (lit "games")) []) (mkLogic (mkTerm 0 (lit "*")) []) (UList (mkLogic (mkTerm 1 (lit "waster")) []))
     (mkLogic (mkTerm 0 (lit "Wd0000-2400")) [(false, mkTerm 0 (lit "Wk1800-0800"))]);
   mkMeaning (mkLogic (mkTerm 0 (lit "login")) []) tty_list (UNet (lit "night")) (mkLogic (mkTerm 1 (lit "Al0000-2400")) [])].
Definition player (service tty user : string) (d : nat) (hm : Z) : asker :=
  mkAsker (lit service) (lit tty) (lit user) (fun g => streq g (lit "night")) (fun g => streq g (lit "staff")) d hm.
Lemma conf_ok : time_file conf conf_means /\ Forall (line_ok 4) conf.
Proof.
  split.
  - apply tf_empty, tf_rule; try reflexivity; try discriminate.
    { split; [reflexivity|]. intros a c b E Ha Hc. destruct a as [|x [|y a]].
      - inversion E; subst. discriminate.
      - inversion E; subst. split; discriminate.
      - exfalso. inversion E; subst. discriminate Ha. }
    apply tf_empty, tf_rule; try reflexivity; try discriminate; [|apply tf_nil].
    exists [], []. repeat split.
  - repeat constructor; vm_compute; intuition (try lia; try discriminate).
Qed.
Ltac dist := repeat match goal with H : _ \/ _ |- _ => destruct H as [H|H]; [discriminate|] end; assumption.
Example time_file_example : forall d hm, (d < 7)%nat -> asker_ok (player "games" "tty1" "joe" d hm) /\ Forall (meaning_ok (player "games" "tty1" "joe" d hm)) conf_means /\
  (existsb (fun m => applies (player "games" "tty1" "joe" 2 1200) m && negb (times_match (player "games" "tty1" "joe" 2 1200) m)) conf_means = true) /\
  (existsb (fun m => applies (player "games" "tty1" "joe" 2 1900) m && negb (times_match (player "games" "tty1" "joe" 2 1900) m)) conf_means = false) /\
  (existsb (fun m => applies (player "games" "tty1" "waster" 2 1200) m && negb (times_match (player "games" "tty1" "waster" 2 1200) m)) conf_means = false) /\
  (existsb (fun m => applies (player "login" "tty1" "joe" 2 1900) m && negb (times_match (player "login" "tty1" "joe" 2 1900) m)) conf_means = true).
Proof.
  intros d hm Hd. split; [|split].
  - unfold asker_ok. cbn [player a_service a_tty a_user a_day]. repeat split; try exact Hd; cbn; intro H; dist.
  - repeat constructor; try discriminate; vm_compute; intros; lia.
  - vm_compute. auto.
Qed.

(** ** What goes wrong *)
(** The last line needs its newline: without it the times are taken for missing and access is denied at all times. *)
Theorem last_newline_needed_refuted : exists text w now, time_account w now (Some (mkFile text false)) = Ok PAM_PERM_DENIED /\
  time_account w now (Some (mkFile (text ++ [c_nl])%list false)) = Ok PAM_SUCCESS.
Proof.
  exists (lit "login;*;*;Al0000-2400"), (mkWho (lit "login") (lit "tty1") (lit "joe") (fun _ => false)), (time_now 1 12 0). split; reflexivity.
Qed.
(** A file that ends after the third semicolon, or cannot be read from there on, makes the module use a NULL pointer. *)
Theorem every_file_is_handled_refuted : exists text w now, time_account w now (Some (mkFile text false)) = UB /\ time_account w now (Some (mkFile text true)) = Ok PAM_SUCCESS.
Proof.
  exists (lit "login;*;*;"), (mkWho (lit "login") (lit "tty1") (lit "joe") (fun _ => false)), (time_now 1 12 0). split; reflexivity.
Qed.
(** Without the file, or with one that cannot be read, everybody is let in. *)
Theorem unreadable_file_denies_refuted : forall w now, time_account w now None = Ok PAM_SUCCESS /\
  forall text, (length text < 1000)%nat -> time_account w now (Some (mkFile text true)) = Ok PAM_SUCCESS.
Proof.
  intros w now. split; [reflexivity|]. intros text H. unfold time_account. cbn [data time_rules]. unfold read_field, fill. cbn [length data bad].
  replace (BUFLEN - 0 =? 0) with false by reflexivity.
  replace (BUFLEN - 0 <=? length text) with false by (symmetry; apply Nat.leb_gt; unfold BUFLEN; lia). reflexivity.
Qed.

(** ** Every file is read to its end *)
Lemma logic_fuel : forall agrees, (forall s l, agrees s l <> OutOfFuel) -> forall fuel x left not or val, (length x < fuel)%nat -> logic_loop agrees fuel x left not or val <> OutOfFuel.
Proof.
  intros agrees Ha; induction fuel as [|fuel IH]; intros x left not or val H; [lia|]. cbn [logic_loop].
  pose proof (member_tokens x) as M. destruct (tokens x) as [|t ts].
  - destruct (logic_member x) as [y k]; cbn [snd] in M; subst k. destruct y; discriminate.
  - destruct M as (r & E & _ & Hl & _). rewrite E.
    assert (Sk : skipn (length (token_text t)) (token_text t ++ r)%list = r) by (rewrite skipn_app, skipn_all, Nat.sub_diag; reflexivity).
    destruct (length (token_text t)) as [|k] eqn:Ek; [destruct (token_text t ++ r)%list; discriminate|]. destruct (token_text t ++ r)%list as [|c s] eqn:Ec; [discriminate|].
    rewrite Sk. destruct val.
    + destruct (Ascii.eqb c "!"%char); [apply IH; lia|]. destruct (name_char c); [|discriminate].
      specialize (Ha (c :: s) (S k)). destruct (agrees (c :: s) (S k)); [apply IH; lia|discriminate|congruence].
    + destruct (Ascii.eqb c "&"%char); [apply IH; lia|]. destruct (Ascii.eqb c "|"%char); [apply IH; lia|discriminate].
Qed.
Lemma same_fuel : forall len whole a b, same_loop whole a b len <> OutOfFuel.
Proof.
  induction len as [|len IH]; intros whole a b; cbn [same_loop]; [discriminate|].
  destruct (Ascii.eqb _ _); [destruct a, b; try discriminate; apply IH|]. destruct (Ascii.eqb _ _); [|discriminate].
  destruct (len =? 0); [discriminate|]. destruct (length whole <? len); discriminate.
Qed.
Lemma names_fuel : forall a x, logic_field (is_same a) x <> OutOfFuel.
Proof. intros a x; unfold logic_field; apply logic_fuel; [intros; apply same_fuel|lia]. Qed.
Lemma times_fuel : forall now x, logic_field (fun t l => Ok (check_time now t l)) x <> OutOfFuel.
Proof. intros now x; unfold logic_field; apply logic_fuel; [discriminate|lia]. Qed.
Lemma user_fuel : forall w x, user_field w x <> OutOfFuel.
Proof. intros w [|c x]; unfold user_field; [apply names_fuel|]. destruct (Ascii.eqb c "@"); [discriminate|apply names_fuel]. Qed.
Definition settled (r : res Z) (ret : Z) : Prop := r = UB \/ r = Ok ret \/ r = Ok PAM_PERM_DENIED.
Lemma settled_bind : forall A (x : res A) k ret, x <> OutOfFuel -> (forall a, settled (k a) ret) -> settled (bind x k) ret.
Proof. intros A [a| |] k ret H K; cbn [bind]; [apply K|left; reflexivity|congruence]. Qed.

Ltac again H := match goal with
  | |- settled (time_rules _ _ _ _ ?rd ?st ?r) _ => apply (H rd st r); auto
  | |- settled (Ok ?r) _ => apply (H RGone SEof r); auto
  | |- settled (match ?st with SNl => time_rules _ _ _ _ ?rd _ ?r | SComment => _ | SField => _ | SEof => _ end) _ => apply (H rd st r); auto
  end.
Lemma time_rules_end : forall w now opens fuel rd st ret, (pending opens rd < fuel)%nat -> settled (time_rules w now opens fuel rd st ret) ret.
Proof.
  intros w now opens; induction fuel as [|fuel IH]; intros rd st ret H; [lia|]. cbn [time_rules].
  assert (Again : forall rd' st' ret', st' = SEof \/ (pending opens rd' < fuel)%nat -> ret' = ret \/ ret' = PAM_PERM_DENIED ->
    settled (match st' with SEof => Ok ret' | _ => time_rules w now opens fuel rd' st' ret' end) ret).
  { intros rd' st' ret' [-> |Hp] Hr; [unfold settled; destruct Hr; subst; auto|].
    assert (S' : settled (time_rules w now opens fuel rd' st' ret') ret).
    { specialize (IH rd' st' ret' Hp). unfold settled in *. destruct Hr as [-> | ->]; tauto. }
    destruct st'; try exact S'. unfold settled; destruct Hr; subst; auto. }
  destruct (read_field opens rd st) as [[rd1 st1] b1] eqn:E1. apply read_shrinks in E1.
  assert (P1 : st1 = SEof \/ (pending opens rd1 < fuel)%nat) by (destruct E1 as [[-> _]|[? _]]; [auto|right; lia]).
  destruct b1 as [[|c1 b1]|]; [again Again| |again Again].
  destruct st1; try (solve [again Again]). destruct P1 as [P1|P1]; [discriminate|].
  apply settled_bind; [apply names_fuel|intro g1].
  destruct (read_field opens rd1 SField) as [[rd2 st2] b2] eqn:E2. apply read_shrinks in E2.
  assert (P2 : st2 = SEof \/ (pending opens rd2 < fuel)%nat) by (destruct E2 as [[-> _]|[? _]]; [auto|right; lia]).
  destruct st2; try (solve [again Again]). destruct P2 as [P2|P2]; [discriminate|]. destruct b2 as [b2|]; [|left; reflexivity].
  apply settled_bind; [apply names_fuel|intro g2].
  destruct (read_field opens rd2 SField) as [[rd3 st3] b3] eqn:E3. apply read_shrinks in E3.
  assert (P3 : st3 = SEof \/ (pending opens rd3 < fuel)%nat) by (destruct E3 as [[-> _]|[? _]]; [auto|right; lia]).
  destruct st3; try (solve [again Again]). destruct P3 as [P3|P3]; [discriminate|]. destruct b3 as [b3|]; [|left; reflexivity].
  apply settled_bind; [apply user_fuel|intro g3].
  destruct (read_field opens rd3 SField) as [[rd4 st4] b4] eqn:E4. apply read_shrinks in E4.
  assert (P4 : st4 = SEof \/ (pending opens rd4 < fuel)%nat) by (destruct E4 as [[-> _]|[? _]]; [auto|right; lia]).
  assert (Fin : settled match b4 with
      | Some b => bind (logic_field (fun t l => Ok (check_time now t l)) b)
          (fun intime => match st4 with SEof => Ok (if g1 && g2 && g3 && negb intime then PAM_PERM_DENIED else ret) | _ => time_rules w now opens fuel rd4 st4 (if g1 && g2 && g3 && negb intime then PAM_PERM_DENIED else ret) end)
      | None => UB end ret).
  { destruct b4 as [b4|]; [|left; reflexivity]. apply settled_bind; [apply times_fuel|intro g4]. apply Again; [exact P4|]. destruct (_ && _); auto. }
  destruct st4; try exact Fin. again Again.
Qed.
(** Whatever the file contains: the module ends, and says PAM_SUCCESS or PAM_PERM_DENIED if it does not run into undefined behaviour. *)
Theorem time_account_ends : forall w now opens, settled (time_account w now opens) PAM_SUCCESS.
Proof. intros w now [f|]; unfold time_account; [|right; left; reflexivity]. apply time_rules_end. cbn [pending]. lia. Qed.
(** The undefined cases need a wildcard with something after it, or a file that breaks off in a rule. *)
Example time_account_ends_example : time_account (mkWho (lit "login") (lit "tty1") (lit "joe") (fun _ => false)) (time_now 1 12 0)
  (Some (mkFile (lit "a;;;;b;!!&;" ++ NUL :: lit "login;*;*;!Al0000-2400#")%list false)) = Ok PAM_SUCCESS.
Proof. reflexivity. Qed.

(** ** pam_group *)
(** With PAM_ESTABLISH_CRED or PAM_REINITIALIZE_CRED the process gets, after the groups it has, exactly those of the matching rules. *)
Theorem pam_group_grants : forall flags q tty service user ls ms stdin set getgr had, asker_ok q -> group_file ls ms -> Forall (line_ok 5) ls ->
  Forall (fun m => meaning_ok q (fst m)) ms -> a_service q = service -> a_tty q = tty_name tty -> a_user q = user -> user <> [] ->
  (N.testbit flags 1 = true \/ N.testbit flags 3 = true) ->
  group_setcred flags (Some service) (PAM_SUCCESS, user) (Some tty) stdin set (a_net q) (a_grp q) getgr (fun _ _ => true)
    (mkWhen (N.shiftl 1 (N.of_nat (a_day q))) (a_hm q)) (Some (mkFile (file_text ls) false)) had true =
  Ok (PAM_SUCCESS, match (had ++ granted q getgr ms)%list with [] => None | g => Some g end).
Proof.
  intros flags q tty service user ls ms stdin set getgr had Hq Hg Hl Hm E1 E2 E3 Hu Hf. unfold group_setcred.
  assert (F : (N.land flags 10 =? 0)%N = false).
  { apply N.eqb_neq. intro Z. assert (forall i, N.testbit (N.land flags 10) i = false) by (intro i; rewrite Z; apply N.bits_0).
    destruct Hf as [Hf|Hf]; [specialize (H 1%N)|specialize (H 3%N)]; rewrite N.land_spec, Hf in H; discriminate. }
  rewrite F. change (negb (PAM_SUCCESS =? PAM_SUCCESS)%Z) with false. cbn [orb]. destruct user as [|c user]; [congruence|].
  rewrite <- E1, <- E2, <- E3. unfold group_account.
  pose proof (group_rules_file q Hq (Some (mkFile (file_text ls) false)) getgr ls ms Hg Hl Hm (S (S (length (file_text ls)))) RStart PAM_SUCCESS had 0 ltac:(split; reflexivity) ltac:(lia)) as R.
  unfold who_of, now_of in R. cbn [data]. rewrite R. cbn [bind]. destruct (had ++ granted q getgr ms)%list; reflexivity.
Qed.
(** Other flags change nothing. *)
Theorem pam_group_other_flags : forall flags service user tty stdin set net grp getgr mem now opens had ok, N.testbit flags 1 = false -> N.testbit flags 3 = false ->
  group_setcred flags service user tty stdin set net grp getgr mem now opens had ok = Ok (PAM_SUCCESS, None).
Proof.
  intros flags service user tty stdin set net grp getgr mem now opens had ok H1 H3. unfold group_setcred.
  replace (N.land flags 10 =? 0)%N with true; [reflexivity|]. symmetry. apply N.eqb_eq. apply N.bits_inj. intro i. rewrite N.land_spec, N.bits_0.
  destruct (N.testbit 10 i) eqn:E; [|apply andb_false_r].
  destruct i as [|p]; [discriminate|]. destruct p as [[p|p|]|[p|p|]|]; try discriminate; try (destruct p; discriminate); [rewrite H3|rewrite H1]; reflexivity.
Qed.

Definition gconf : list line :=
  [Rule [as_raw "login"; as_raw "*"; as_raw "%staff"; as_raw "Al0000-2400"] (as_raw " audio,video , nosuch") (Some (lit " c"));
   Rule [as_raw "login"; as_raw "*"; as_raw "*"; as_raw "Wk0000-0001"] (as_raw "games") None].
Definition gconf_means : list (meaning * list cstr) :=
  [(mkMeaning (mkLogic (mkTerm 0 (lit "login")) []) (mkLogic (mkTerm 0 (lit "*")) []) (UGroup (lit "staff")) (mkLogic (mkTerm 0 (lit "Al0000-2400")) []), [lit "audio"; lit "video"; lit "nosuch"]);
   (mkMeaning (mkLogic (mkTerm 0 (lit "login")) []) (mkLogic (mkTerm 0 (lit "*")) []) (UList (mkLogic (mkTerm 0 (lit "*")) [])) (mkLogic (mkTerm 0 (lit "Wk0000-0001")) []), [lit "games"])].
Definition gids (n : cstr) : option Z := if streq n (lit "audio") then Some 29%Z else if streq n (lit "video") then Some 44%Z else if streq n (lit "games") then Some 60%Z else None.
Example pam_group_example : group_file gconf gconf_means /\ Forall (line_ok 5) gconf /\ asker_ok (player "login" "tty1" "joe" 2 1200) /\
  Forall (fun m => meaning_ok (player "login" "tty1" "joe" 2 1200) (fst m)) gconf_means /\ granted (player "login" "tty1" "joe" 2 1200) gids gconf_means = [29; 44]%Z.
Proof.
  split; [|split; [|split; [|split]]].
  - unfold gconf_means. change [lit "audio"; lit "video"; lit "nosuch"] with (runs in_group_name (chars (as_raw " audio,video , nosuch"))).
    change [lit "games"] with (runs in_group_name (chars (as_raw "games"))).
    apply gf_rule; try reflexivity; [|apply gf_rule; try reflexivity; [|apply gf_nil]].
    + exists [], []. repeat split.
    + split; [reflexivity|]. intros a c b E Ha Hc. destruct a as [|x a]; [inversion E; split; discriminate|]. inversion E; subst. destruct a; discriminate.
  - repeat constructor; vm_compute; intuition (try lia; try discriminate).
  - unfold asker_ok. cbn [player a_service a_tty a_user a_day]. repeat split; try lia; cbn; intro H; dist.
  - repeat constructor; try discriminate; vm_compute; intros; lia.
  - reflexivity.
Qed.
(** When memory runs out the groups the process has are forgotten, and a later rule then replaces them. *)
Theorem pam_group_keeps_groups_refuted : exists text mem had l, group_account (mkWho (lit "login") (lit "tty1") (lit "joe") (fun _ => false)) (fun _ => false) gids mem
  (time_now 2 12 0) (Some (mkFile text false)) had true = Ok (PAM_BUF_ERR, Some l) /\ exists g, In g had /\ ~ In g l.
Proof.
  exists (lit "login;*;*;Al0000-2400;audio" ++ c_nl :: lit "login;*;*;Al0000-2400;games" ++ [c_nl])%list, (fun n _ => negb (n =? 1)), (map Z.of_nat (seq 100 10)), [60%Z].
  split; [vm_compute; reflexivity|]. exists 100%Z. split; [left; reflexivity|]. intros [E|[]]; discriminate.
Qed.

Print Assumptions logic_list_value.
Print Assumptions time_file_decides.
Print Assumptions pam_time_decides.
Print Assumptions time_account_ends.
Print Assumptions range_admits.
Print Assumptions pam_group_grants.
