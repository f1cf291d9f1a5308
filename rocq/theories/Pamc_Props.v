(** C38, C51: binary prompts, agent names, agents and the conversation with them. *)
From Coq Require Import String Ascii List Arith ZArith Lia Bool Permutation Sorted.
From Verif Require Import Base Inline_Model Pamc_Model.
Import ListNotations.
Local Open Scope Z_scope.

(** ** Specification *)
(** The four octets of a 32-bit number, the most significant first. *)
Definition be32 (n : Z) : list ascii := [byte (n / 16777216); byte (n / 65536); byte (n / 256); byte n].
(** The message a prompt with this control and data is, as it goes through a pipe. *)
Definition message (control : Z) (data : list ascii) : list ascii :=
  be32 (5 + Z.of_nat (length data)) ++ byte control :: data.
(** The block holding it: one NUL more. *)
Definition encode (control : Z) (data : list ascii) : list ascii := message control data ++ [NUL].
(** What can be sent: a control that is an octet other than 0, and fewer than 2^31 - 5 bytes. *)
Definition sendable (control : Z) (data : list ascii) : Prop :=
  1 <= control <= 255 /\ 5 + Z.of_nat (length data) < 2147483648.

(** ** Octets *)
Lemma ord_chr_small : forall n, (n < 256)%nat -> ord (chr n) = n.
Proof. intros n H. unfold ord, chr. apply nat_ascii_embedding. exact H. Qed.

Lemma oct_byte : forall z, oct (byte z) = z mod 256.
Proof.
  intro z. unfold oct, byte. assert (0 <= z mod 256 < 256) by (apply Z.mod_pos_bound; lia).
  rewrite ord_chr_small by lia. lia.
Qed.

Lemma oct_range : forall c, 0 <= oct c < 256.
Proof.
  intro c. unfold oct, ord. assert (H := nat_ascii_bounded c). lia.
Qed.

Lemma byte_oct : forall c, byte (oct c) = c.
Proof.
  intro c. unfold byte. assert (H := oct_range c). rewrite Z.mod_small by exact H.
  unfold oct. rewrite Nat2Z.id. unfold chr, ord. apply ascii_nat_embedding.
Qed.

Lemma size_be32 : forall n rest, 0 <= n < 2147483648 -> bp_size (be32 n ++ rest) = Ok n.
Proof.
  intros n rest H. unfold be32. cbn [app bp_size]. rewrite !oct_byte.
  assert (n / 16777216 < 128) by (apply Z.div_lt_upper_bound; lia).
  assert (0 <= n / 16777216) by (apply Z.div_pos; lia).
  rewrite (Z.mod_small (n / 16777216)) by lia.
  destruct (128 <=? n / 16777216) eqn:E; [apply Z.leb_le in E; lia|]. f_equal.
  assert (E1 : n / 65536 = 256 * (n / 16777216) + (n / 65536) mod 256).
  { replace (n / 16777216) with (n / 65536 / 256) by (rewrite Z.div_div by lia; reflexivity).
    apply Z.div_mod; lia. }
  assert (E2 : n / 256 = 256 * (n / 65536) + (n / 256) mod 256).
  { replace (n / 65536) with (n / 256 / 256) by (rewrite Z.div_div by lia; reflexivity).
    apply Z.div_mod; lia. }
  assert (E3 : n = 256 * (n / 256) + n mod 256) by (apply Z.div_mod; lia).
  change (2 ^ 24) with 16777216. change (2 ^ 16) with 65536. change (2 ^ 8) with 256. lia.
Qed.

Lemma be32_len : forall n, length (be32 n) = 4%nat.
Proof. reflexivity. Qed.

Lemma be32_of : forall a b c d, be32 (oct a * 16777216 + oct b * 65536 + oct c * 256 + oct d) = [a; b; c; d].
Proof.
  intros a b c d. assert (Ha := oct_range a). assert (Hb := oct_range b).
  assert (Hc := oct_range c). assert (Hd := oct_range d).
  unfold be32.
  replace ((oct a * 16777216 + oct b * 65536 + oct c * 256 + oct d) / 16777216) with (oct a)
    by (apply Z.div_unique with (oct b * 65536 + oct c * 256 + oct d); lia).
  replace ((oct a * 16777216 + oct b * 65536 + oct c * 256 + oct d) / 65536) with (oct a * 256 + oct b)
    by (apply Z.div_unique with (oct c * 256 + oct d); lia).
  replace ((oct a * 16777216 + oct b * 65536 + oct c * 256 + oct d) / 256) with (oct a * 65536 + oct b * 256 + oct c)
    by (apply Z.div_unique with (oct d); lia).
  assert (M : forall k x, 0 <= x < 256 -> byte (k * 256 + x) = byte x).
  { intros k x Hx. unfold byte. rewrite Z.add_comm, Z_mod_plus_full. reflexivity. }
  rewrite (M (oct a) (oct b) Hb).
  replace (oct a * 65536 + oct b * 256 + oct c) with ((oct a * 256 + oct b) * 256 + oct c) by lia.
  rewrite (M _ (oct c) Hc).
  replace (oct a * 16777216 + oct b * 65536 + oct c * 256 + oct d)
    with ((oct a * 65536 + oct b * 256 + oct c) * 256 + oct d) by lia.
  rewrite (M _ (oct d) Hd). rewrite !byte_oct. reflexivity.
Qed.

Lemma encode_size : forall c d, sendable c d -> bp_size (encode c d) = Ok (5 + Z.of_nat (length d)).
Proof.
  intros c d [_ H]. unfold encode, message. rewrite <- app_assoc. apply size_be32. lia.
Qed.

Lemma encode_control : forall c d, sendable c d -> bp_control (encode c d) = Ok c.
Proof.
  intros c d [H _]. unfold bp_control, encode, message, be32. cbn [app nth_error].
  rewrite oct_byte, Z.mod_small by lia. reflexivity.
Qed.

Lemma encode_len : forall c d, Z.of_nat (length (encode c d)) = 6 + Z.of_nat (length d).
Proof.
  intros. unfold encode, message. rewrite !app_length. cbn [length]. rewrite be32_len. lia.
Qed.

Lemma encode_length : forall c d, sendable c d -> bp_length (encode c d) = Ok (Z.of_nat (length d)).
Proof.
  intros c d H. unfold bp_length. rewrite encode_size by exact H. cbn [bind]. f_equal.
  unfold u64, MIN_SIZE. rewrite Z.mod_small; [lia|]. destruct H as [_ H].
  change (2 ^ 64) with 18446744073709551616. lia.
Qed.

(** What PAM_BP_RENEW makes: the header and zero bytes. *)
Lemma make_value : forall nd c d, sendable c d ->
  bp_make nd true c (Z.of_nat (length d)) = Ok (Goes (Some (encode c (repeat NUL (length d))))).
Proof.
  intros nd c d [Hc Hl]. unfold bp_make.
  destruct (c =? 0) eqn:E; [apply Z.eqb_eq in E; lia|]. cbn [negb].
  unfold u32, MIN_SIZE. change (2 ^ 32) with 4294967296.
  rewrite (Z.mod_small (5 + Z.of_nat (length d))) by lia.
  rewrite (Z.mod_small (1 + (5 + Z.of_nat (length d)))) by lia.
  replace (Z.to_nat (1 + (5 + Z.of_nat (length d)))) with (5 + (length d + 1))%nat by lia.
  cbn [repeat Nat.add]. unfold encode, message, be32. cbn [app].
  rewrite repeat_length. change (2 ^ 24) with 16777216. change (2 ^ 16) with 65536. change (2 ^ 8) with 256.
  rewrite repeat_app. reflexivity.
Qed.

Lemma skipn_repeat' : forall (A : Type) (x : A) n k, skipn k (repeat x n) = repeat x (n - k).
Proof. induction n as [|n IH]; destruct k; simpl; auto. Qed.

(** Writing over data [d] from [off] on. *)
Definition overwrite (d : list ascii) (off : nat) (x : list ascii) : list ascii :=
  firstn off d ++ x ++ skipn (off + length x) d.

Lemma overwrite_len : forall d off x, (off + length x <= length d)%nat -> length (overwrite d off x) = length d.
Proof.
  intros. unfold overwrite. rewrite !app_length, firstn_length, skipn_length. lia.
Qed.

Lemma put_encode : forall c d off x, (off + length x <= length d)%nat ->
  put (encode c d) (Z.of_nat off) (Z.of_nat (length x)) x = Ok (encode c (overwrite d off x)).
Proof.
  intros c d off x H. unfold put.
  assert (L := encode_len c d).
  destruct (Z.of_nat off <? 0) eqn:E1; [apply Z.ltb_lt in E1; lia|].
  destruct (Z.of_nat (length x) <? 0) eqn:E2; [apply Z.ltb_lt in E2; lia|].
  destruct (Z.of_nat (length x) <? Z.of_nat (length x)) eqn:E3; [apply Z.ltb_lt in E3; lia|].
  destruct (Z.of_nat (length (encode c d)) <? MIN_SIZE + Z.of_nat off + Z.of_nat (length x)) eqn:E4;
    [apply Z.ltb_lt in E4; unfold MIN_SIZE in E4; lia|].
  cbn [orb]. f_equal. unfold MIN_SIZE.
  replace (Z.to_nat (5 + Z.of_nat off)) with (5 + off)%nat by lia.
  replace (Z.to_nat (5 + Z.of_nat off + Z.of_nat (length x))) with (5 + (off + length x))%nat by lia.
  rewrite Nat2Z.id, firstn_all.
  unfold encode, message. rewrite overwrite_len by exact H. unfold be32.
  cbn [app Nat.add firstn skipn]. do 5 f_equal. unfold overwrite.
  rewrite firstn_app, skipn_app.
  replace (off - length d)%nat with 0%nat by lia.
  replace (off + length x - length d)%nat with 0%nat by lia.
  cbn [firstn skipn]. rewrite app_nil_r, <- !app_assoc. reflexivity.
Qed.

(** Filling part of a prompt puts the bytes there and changes nothing else. *)
Theorem fill_places : forall nd c d off x, sendable c d -> (off + length x <= length d)%nat ->
  fill nd (encode c d) (Z.of_nat off) (Z.of_nat (length x)) x = Ok (Goes (encode c (overwrite d off x))).
Proof.
  intros nd c d off x S H. unfold fill. rewrite encode_length by exact S.
  destruct S as [_ S].
  assert (u64 (Z.of_nat (length x) + Z.of_nat off) = Z.of_nat (length x) + Z.of_nat off) as ->.
  { unfold u64. apply Z.mod_small. change (2 ^ 64) with 18446744073709551616. lia. }
  destruct (Z.of_nat (length d) <? Z.of_nat (length x) + Z.of_nat off) eqn:E; [apply Z.ltb_lt in E; lia|].
  cbn [thenE]. rewrite put_encode by exact H. reflexivity.
Qed.

(** Filling past the end stops the program, unless assertions are compiled out. *)
Theorem fill_past_end_stops : forall c d off x, sendable c d -> 
  (length d < off + length x)%nat -> Z.of_nat off + Z.of_nat (length x) < 2 ^ 64 ->
  fill false (encode c d) (Z.of_nat off) (Z.of_nat (length x)) x = Ok Exits.
Proof.
  intros c d off x S H B. unfold fill. rewrite encode_length by exact S.
  assert (u64 (Z.of_nat (length x) + Z.of_nat off) = Z.of_nat (length x) + Z.of_nat off) as ->.
  { unfold u64. apply Z.mod_small. lia. }
  destruct (Z.of_nat (length d) <? Z.of_nat (length x) + Z.of_nat off) eqn:E; [|apply Z.ltb_ge in E; lia].
  reflexivity.
Qed.

(** Extracting part of a prompt gives these bytes of the data. *)
Theorem extract_gives : forall nd c d off n, sendable c d -> (off + n <= length d)%nat ->
  extract nd (encode c d) (Z.of_nat off) (Z.of_nat n) = Ok (Goes (firstn n (skipn off d))).
Proof.
  intros nd c d off n S H. unfold extract. rewrite encode_length by exact S.
  destruct S as [_ S]. assert (L := encode_len c d).
  assert (u64 (Z.of_nat n + Z.of_nat off) = Z.of_nat n + Z.of_nat off) as ->.
  { unfold u64. apply Z.mod_small. change (2 ^ 64) with 18446744073709551616. lia. }
  destruct (Z.of_nat off <? 0) eqn:E1; [apply Z.ltb_lt in E1; lia|].
  destruct (Z.of_nat n <? 0) eqn:E2; [apply Z.ltb_lt in E2; lia|].
  destruct (Z.of_nat (length d) <? Z.of_nat n + Z.of_nat off) eqn:E; [apply Z.ltb_lt in E; lia|].
  cbn [orb thenE].
  destruct (Z.of_nat (length (encode c d)) <? MIN_SIZE + Z.of_nat off + Z.of_nat n) eqn:E4;
    [apply Z.ltb_lt in E4; unfold MIN_SIZE in E4; lia|].
  do 2 f_equal. unfold MIN_SIZE.
  replace (Z.to_nat (5 + Z.of_nat off)) with (5 + off)%nat by lia. rewrite Nat2Z.id.
  unfold encode, message, be32. cbn [app Nat.add skipn].
  rewrite skipn_app. replace (off - length d)%nat with 0%nat by lia. cbn [skipn].
  rewrite firstn_app. replace (n - length (skipn off d))%nat with 0%nat by (rewrite skipn_length; lia).
  cbn [firstn]. apply app_nil_r.
Qed.

(** A prompt built with the documented macros reads back with its control, length and data, whatever prompt
    was there before; and its bytes are the documented ones. *)
Theorem prompt_reads_back : forall nd old control data,
  (forall p, old = Some p -> exists c d, sendable c d /\ p = encode c d) ->
  sendable control data ->
  exists p q,
    renew nd true (Some old) control (Z.of_nat (length data)) = Ok (Goes (Some (Some p))) /\
    fill nd p 0 (Z.of_nat (length data)) data = Ok (Goes q) /\
    bp_control q = Ok control /\
    bp_length q = Ok (Z.of_nat (length data)) /\
    extract nd q 0 (Z.of_nat (length data)) = Ok (Goes data) /\
    q = be32 (5 + Z.of_nat (length data)) ++ [byte control] ++ data ++ [NUL].
Proof.
  intros nd old c d Hold S.
  assert (D : bp_drop old = Ok tt).
  { destruct old as [p|]; [|reflexivity]. destruct (Hold p eq_refl) as (c' & d' & S' & ->).
    cbn [bp_drop]. rewrite encode_size by exact S'. cbn [bind]. rewrite encode_len.
    destruct (6 + Z.of_nat (length d') <? 5 + Z.of_nat (length d')) eqn:E; [apply Z.ltb_lt in E; lia|reflexivity]. }
  assert (S' : sendable c (repeat NUL (length d))).
  { unfold sendable. rewrite repeat_length. exact S. }
  exists (encode c (repeat NUL (length d))), (encode c d).
  split; [unfold renew; rewrite D, make_value by exact S; reflexivity|].
  split.
  { change 0 with (Z.of_nat 0). rewrite fill_places; [|exact S'|rewrite repeat_length; lia].
    unfold overwrite. cbn [firstn Nat.add app]. rewrite skipn_repeat', Nat.sub_diag. cbn [repeat].
    rewrite app_nil_r. reflexivity. }
  split; [apply encode_control; exact S|].
  split; [apply encode_length; exact S|].
  split.
  { change 0 with (Z.of_nat 0). rewrite extract_gives by (try exact S; lia). cbn [skipn].
    rewrite firstn_all. reflexivity. }
  unfold encode, message. rewrite <- app_assoc. reflexivity.
Qed.

Example prompt_reads_back_ex :
  sendable 67 (lit "hello") /\
  encode 67 (lit "hello") = (map chr [0; 0; 0; 10; 67]%nat ++ lit "hello" ++ [NUL])%list.
Proof. split; [unfold sendable; simpl; lia|reflexivity]. Qed.

(** ** Agent names *)
(** A legal name: letters, digits and underscores, and possibly, not at the start, an '@' followed by such
    characters and full stops (the comments and tests of __pamc_valid_agent_id). *)
Definition name_char (c : ascii) : bool := isalpha c || isdigit c || Ascii.eqb c "_"%char.
Definition legal_name (id : list ascii) : Prop :=
  exists a b, a <> [] /\ forallb name_char a = true /\
    (id = a \/ (id = a ++ "@"%char :: b /\ forallb (fun c => name_char c || Ascii.eqb c "."%char) b = true)).
(** The first, third, fifth ... of the characters. *)
Fixpoint alternate (id : list ascii) : list ascii :=
  match id with
  | [] => []
  | [c] => [c]
  | c :: _ :: r => c :: alternate r
  end.

Lemma name_not_special : forall c, name_char c = true -> Ascii.eqb c "."%char = false /\ Ascii.eqb c "@"%char = false.
Proof.
  intros c H. split; destruct (Ascii.eqb_spec c "."%char); destruct (Ascii.eqb_spec c "@"%char);
    subst; auto; vm_compute in H; discriminate.
Qed.

Lemma alternate_tl : forall c r, alternate (c :: r) = c :: alternate (tl r).
Proof. intros c [|x r]; reflexivity. Qed.

Lemma tl_length : forall (A : Type) (l : list A), (length (tl l) <= length l)%nat.
Proof. intros A [|x l]; simpl; lia. Qed.

Lemma valid_post : forall f i id, (length id <= f)%nat ->
  valid_loop f i true id = forallb (fun c => name_char c || Ascii.eqb c "."%char) (alternate id).
Proof.
  induction f as [|f IH]; intros i id H; [destruct id; [reflexivity|simpl in H; lia]|].
  destruct id as [|c r]; [reflexivity|]. rewrite alternate_tl. cbn [valid_loop forallb].
  assert (L := tl_length _ r). simpl in H.
  fold (name_char c). destruct (name_char c) eqn:N; cbn [orb]; [apply IH; lia|].
  cbn [andb negb]. destruct (Ascii.eqb c "."%char); [apply IH; lia|].
  rewrite andb_false_r. reflexivity.
Qed.

Lemma valid_pre : forall f i id, (length id <= f)%nat -> (1 <= i)%nat ->
  (valid_loop f i false id = true <->
   exists a b, forallb name_char a = true /\
     (alternate id = a \/ (alternate id = a ++ "@"%char :: b /\
        forallb (fun c => name_char c || Ascii.eqb c "."%char) b = true))).
Proof.
  induction f as [|f IH]; intros i id H Hi.
  { destruct id; [|simpl in H; lia]. split; [intros _; exists [], []; auto|reflexivity]. }
  destruct id as [|c r]; [split; [intros _; exists [], []; auto|reflexivity]|].
  rewrite alternate_tl. cbn [valid_loop].
  assert (L := tl_length _ r). simpl in H. fold (name_char c).
  destruct (name_char c) eqn:N.
  - rewrite (IH (S (S i)) (tl r)) by lia. split.
    + intros (a & b & A & [E|[E B]]); exists (c :: a), b; cbn [forallb]; rewrite N, A, E; auto.
    + intros (a & b & A & [E|[E B]]).
      * destruct a as [|c' a]; [discriminate|]. inversion E; subst c'. cbn [forallb] in A.
        apply andb_true_iff in A. exists a, b. destruct A as [_ A]. auto.
      * destruct a as [|c' a].
        { simpl in E. inversion E; subst c. destruct (name_not_special _ N) as [_ X].
          rewrite Ascii.eqb_refl in X. discriminate. }
        inversion E; subst c'. cbn [forallb] in A. apply andb_true_iff in A. destruct A as [_ A].
        exists a, b. auto.
  - cbn [andb negb]. replace (1 <? S i)%nat with true by (symmetry; apply Nat.ltb_lt; lia). cbn [andb].
    destruct (Ascii.eqb_spec c "@"%char) as [->|Ne].
    + rewrite valid_post by lia. split.
      * intro V. exists [], (alternate (tl r)). auto.
      * intros (a & b & A & [E|[E B]]).
        { destruct a as [|c' a]; [discriminate|]. inversion E; subst c'. cbn [forallb] in A.
          rewrite N in A. discriminate. }
        destruct a as [|c' a]; simpl in E; inversion E; subst; [exact B|].
        cbn [forallb] in A. rewrite N in A. discriminate.
    + split; [discriminate|]. intros (a & b & A & [E|[E B]]).
      * destruct a as [|c' a]; [discriminate|]. inversion E; subst c'. cbn [forallb] in A.
        rewrite N in A. discriminate.
      * destruct a as [|c' a]; simpl in E; inversion E; subst; [contradiction|].
        cbn [forallb] in A. rewrite N in A. discriminate.
Qed.

(** Exactly what is accepted as an agent name: every other character must make a legal name, and the rest
    may be anything. *)
Theorem agent_id_checked_alternately : forall id,
  valid_agent_id id = true <-> legal_name (alternate id).
Proof.
  intro id. unfold valid_agent_id. rewrite andb_true_iff, negb_true_iff.
  destruct id as [|c r].
  { split; [intros [_ H]; discriminate|]. intros (a & b & Na & A & [E|[E B]]).
    - subst a. contradiction Na. reflexivity.
    - destruct a; discriminate. }
  rewrite alternate_tl. cbn [length valid_loop].
  assert (L := tl_length _ r). fold (name_char c).
  destruct (name_char c) eqn:N.
  - rewrite valid_pre by lia. split.
    + intros [(a & b & A & [E|[E B]]) _]; exists (c :: a), b; cbn [forallb]; rewrite N, A, E; split; try discriminate; auto.
    + intros (a & b & Na & A & D). split; [|reflexivity]. destruct a as [|c' a]; [contradiction Na; reflexivity|].
      cbn [forallb] in A. apply andb_true_iff in A. destruct A as [_ A].
      exists a, b. split; [exact A|]. destruct D as [E|[E B]]; injection E; intros E' _; auto.
  - cbn [andb Nat.ltb Nat.leb negb]. split; [intros [H _]; discriminate|].
    intros (a & b & Na & A & D). destruct a as [|c' a]; [contradiction Na; reflexivity|].
    cbn [forallb] in A. destruct D as [E|[E B]]; inversion E; subst; rewrite N in A; discriminate.
Qed.

(** So a name with an illegal character can be accepted, *)
Theorem accepted_names_are_legal_refuted :
  exists id, valid_agent_id id = true /\ ~ legal_name id.
Proof.
  exists (lit "a;r-"). split; [reflexivity|]. intros (a & b & Na & A & [E|[E B]]).
  - subst a. vm_compute in A. discriminate.
  - destruct a as [|x [|y a]]; try (vm_compute in E; discriminate).
    vm_compute in E. injection E. intros _ Hy _. subst y. cbn [forallb] in A.
    apply andb_true_iff in A. destruct A as [_ A]. discriminate.
Qed.

(** and a legal one refused. *)
Theorem legal_names_are_accepted_refuted :
  exists id, legal_name id /\ valid_agent_id id = false.
Proof.
  exists (lit "a@bc.d"). split; [|reflexivity].
  exists (lit "a"), (lit "bc.d"). split; [discriminate|]. split; [reflexivity|]. right. split; reflexivity.
Qed.

(** Names of letters, digits and underscores only are accepted. *)
Theorem plain_names_accepted : forall id, id <> [] -> forallb name_char id = true -> valid_agent_id id = true.
Proof.
  intros id Ne H. apply agent_id_checked_alternately. exists (alternate id), [].
  assert (A : forall n id, (length id <= n)%nat -> forallb name_char id = true -> forallb name_char (alternate id) = true).
  { induction n as [|n IH]; intros [|c [|c2 r]] L F; try reflexivity; try (simpl in L; lia); try exact F.
    cbn [alternate forallb] in *. apply andb_true_iff in F. destruct F as [F1 F2].
    apply andb_true_iff in F2. destruct F2 as [_ F2]. rewrite F1. apply IH; [simpl in L; lia|exact F2]. }
  split; [destruct id as [|c [|c2 r]]; [contradiction Ne; reflexivity| |]; discriminate|].
  split; [apply (A (length id)); auto|]. left. reflexivity.
Qed.
Example plain_names_accepted_ex : valid_agent_id (lit "ssh_agent2") = true /\ valid_agent_id [] = false.
Proof. split; reflexivity. Qed.

(** ** The search path *)
(** The parts of a string between colons. *)
Fixpoint parts (p : cstr) : list cstr :=
  match p with
  | [] => [[]]
  | c :: r => if Ascii.eqb c ":"%char then [] :: parts r
              else match parts r with x :: xs => (c :: x) :: xs | [] => [[c]] end
  end.
(** Without an empty last one. *)
Definition drop_empty_last (l : list cstr) : list cstr :=
  match last l [] with [] => removelast l | _ => l end.

Lemma parts_ne : forall p, parts p <> [].
Proof.
  intros [|c r]; simpl; [discriminate|]. destruct (Ascii.eqb c ":"%char); [discriminate|].
  destruct (parts r); discriminate.
Qed.

Lemma drop_cons : forall x l, l <> [] -> drop_empty_last (x :: l) = x :: drop_empty_last l.
Proof.
  intros x l H. unfold drop_empty_last. destruct l as [|y l]; [contradiction H; reflexivity|].
  change (last (x :: y :: l) []) with (last (y :: l) []).
  destruct (last (y :: l) []); reflexivity.
Qed.

Lemma count_is : forall p, count_paths p = length (parts p).
Proof.
  induction p as [|c r IH]; [reflexivity|]. simpl. destruct (Ascii.eqb c ":"%char); [simpl; rewrite IH; reflexivity|].
  rewrite IH. assert (N := parts_ne r). destruct (parts r); [contradiction N; reflexivity|reflexivity].
Qed.

Lemma path_loop_is : forall p cur n, n = length (parts p) ->
  path_loop p cur n = drop_empty_last (match parts p with x :: xs => (cur ++ x) :: xs | [] => [] end).
Proof.
  induction p as [|c r IH]; intros cur n H.
  { cbn [path_loop parts]. rewrite app_nil_r. destruct cur; reflexivity. }
  cbn [path_loop parts] in *. assert (N := parts_ne r).
  destruct (Ascii.eqb c ":"%char).
  - rewrite app_nil_r. cbn [length] in H.
    destruct (parts r) as [|x xs] eqn:E; [contradiction N; reflexivity|].
    cbn [length] in H. subst n. rewrite drop_cons by discriminate. f_equal.
    rewrite (IH [] (S (length xs)) eq_refl). reflexivity.
  - destruct (parts r) as [|x xs] eqn:E; [contradiction N; reflexivity|].
    cbn [length] in H. rewrite (IH (cur ++ [c]) n H). rewrite <- app_assoc. reflexivity.
Qed.

(** The directories searched are the parts of PAMC_AGENT_PATH between the colons, in order; only an empty
    last one is left out. *)
Theorem search_path_is_parts : forall p, start_paths (Some p) = drop_empty_last (parts p).
Proof.
  intro p. unfold start_paths. rewrite path_loop_is by apply count_is.
  assert (N := parts_ne p). destruct (parts p); [contradiction N; reflexivity|reflexivity].
Qed.
Example search_path_ex :
  start_paths None = [lit "/lib/pamc"; lit "/usr/lib/pamc"] /\
  start_paths (Some (lit "a::b:")) = [lit "a"; []; lit "b"] /\ start_paths (Some []) = [].
Proof. repeat split. Qed.

(** ** Loading and disabling agents *)
Section Handles.
Variable exists_file : cstr -> bool.
Variable start : cstr -> option (sink * src).
Variable ndebug : bool.

(** The program is the one for the agent of this name in one of the directories. *)
Definition program_of (ps : list cstr) (id prog : cstr) : Prop :=
  exists p, In p ps /\ prog = p ++ lit "/" ++ id /\ ~ In c_slash id /\ exists_file prog = true.

(** Any use of the library by a client, one call after another. *)
Inductive used : handle -> handle -> Prop :=
| used_none : forall h, used h h
| used_load : forall h h' mem id, used h h' -> used h (snd (pamc_load exists_file start mem h' id))
| used_disable : forall h h' mem id, used h h' -> used h (snd (pamc_disable mem h' id))
| used_converse : forall h h' m0 m1 m2 fuel prompt b q h2, used h h' ->
    pamc_converse exists_file start ndebug m0 m1 m2 fuel (Some h') prompt = Ok (Goes (b, q, Some h2)) ->
    used h h2.

(** What always holds of a handle. *)
Record sound (h : handle) : Prop := {
  s_nodup : NoDup (map a_id (chain h));
  s_blocked : forall id, In id (blocked h) -> ~ In id (map a_id (chain h));
  s_ran : Forall2 (program_of (paths h)) (map a_id (chain h)) (execs h);
  s_current : forall id, current h = Some id -> In id (map a_id (chain h)) }.

Lemma existsb_streq : forall l id, existsb (streq id) l = true <-> In id l.
Proof.
  intros l id. rewrite existsb_exists. split.
  - intros (x & H & E). apply streq_eq in E. subst. exact H.
  - intro H. exists id. split; [exact H|apply streq_refl].
Qed.

Lemma enabled_in : forall h id, is_enabled h id = true <-> In id (map a_id (chain h)).
Proof.
  intros h id. unfold is_enabled. rewrite existsb_exists, in_map_iff. split.
  - intros (x & H & E). apply streq_eq in E. exists x. auto.
  - intros (x & E & H). exists x. split; [exact H|]. apply streq_eq. exact E.
Qed.

Lemma find_agent_some : forall ps id full, find_agent exists_file ps id = Some full ->
  exists p, In p ps /\ full = p ++ lit "/" ++ id /\ exists_file full = true.
Proof.
  induction ps as [|p ps IH]; intros id full H; [discriminate|]. cbn [find_agent] in H. cbv zeta in H.
  destruct (exists_file (p ++ lit "/" ++ id)) eqn:E.
  - injection H as <-. exists p. repeat split; auto. left. reflexivity.
  - destruct (IH _ _ H) as (q & Q & R). exists q. split; [right; exact Q|exact R].
Qed.

Lemma load_sound : forall mem h id, sound h -> sound (snd (pamc_load exists_file start mem h id)).
Proof.
  intros mem h id S. unfold pamc_load.
  destruct (is_disabled h id) eqn:D; [exact S|].
  destruct (is_enabled h id) eqn:En; [exact S|].
  destruct mem; [cbn [negb]|exact S].
  unfold exec_agent. destruct (existsb (fun c => Ascii.eqb c c_slash) id) eqn:Sl; [exact S|].
  destruct (find_agent exists_file (paths h) id) as [full|] eqn:F; [|exact S].
  destruct (start full) as [[w r]|]; [|exact S].
  cbn [snd]. destruct S as [S1 S2 S3 S4].
  assert (Nin : ~ In id (map a_id (chain h))) by (intro X; apply enabled_in in X; congruence).
  constructor; cbn [chain blocked paths execs current map a_id].
  - constructor; assumption.
  - intros b B [E|I].
    + subst b. unfold is_disabled in D. apply existsb_streq in B. congruence.
    + exact (S2 b B I).
  - constructor; [|exact S3]. destruct (find_agent_some _ _ _ F) as (p & P & E & X).
    exists p. split; [exact P|]. split; [exact E|]. split; [|exact X].
    intro I. assert (existsb (fun c => Ascii.eqb c c_slash) id = true) as Y; [|congruence].
    apply existsb_exists. exists c_slash. split; [exact I|apply Ascii.eqb_refl].
  - intros x X. right. exact (S4 x X).
Qed.

Lemma disable_sound : forall mem h id, sound h -> sound (snd (pamc_disable mem h id)).
Proof.
  intros mem h id S. unfold pamc_disable. destruct (is_enabled h id) eqn:En; [exact S|].
  destruct (is_disabled h id); [exact S|]. destruct mem; [|exact S].
  destruct S as [S1 S2 S3 S4]. constructor; cbn [snd chain blocked paths execs current]; auto.
  intros b [E|B]; [|auto]. subst b. intro X. apply enabled_in in X. congruence.
Qed.

Lemma select_sound : forall h id, sound h -> sound (snd (select_agent h id)).
Proof.
  intros h id [S1 S2 S3 S4]. unfold select_agent. destruct (is_enabled h id) eqn:En; constructor;
    cbn [snd chain blocked paths execs current]; auto; try discriminate.
  intros x X. injection X as <-. apply enabled_in. exact En.
Qed.

Lemma choose_sound : forall mem h c d, sound h -> sound (snd (choose exists_file start mem h c d)).
Proof.
  intros mem h c d S. unfold choose. destruct (c =? BPC_SELECT); [|exact S].
  destruct (before_slash d) as [id|]; [|exact S].
  destruct (negb (valid_agent_id id)); [exact S|].
  assert (L := load_sound mem h (cut_nul id) S).
  destruct (pamc_load exists_file start mem h (cut_nul id)) as [ok h'] eqn:E. cbn [snd] in L.
  destruct ok; [|exact L]. apply select_sound. exact L.
Qed.

Lemma with_ids : forall h w r, map a_id (chain (with_current h w r)) = map a_id (chain h).
Proof.
  intros h w r. unfold with_current. destruct (current h) as [id|]; [|reflexivity].
  cbn [chain]. rewrite map_map. apply map_ext. intro a. destruct (streq (a_id a) id); reflexivity.
Qed.

Lemma with_sound : forall h w r, sound h -> sound (with_current h w r).
Proof.
  intros h w r [S1 S2 S3 S4]. assert (I := with_ids h w r). constructor; rewrite ?I; auto.
  - unfold with_current. destruct (current h); exact S2.
  - unfold with_current. destruct (current h); exact S3.
  - unfold with_current. destruct (current h) eqn:E; cbn [current]; [intros x X; apply S4; congruence|congruence].
Qed.

(** The handle after a conversation: the one with the agent chosen, and that agent's pipes. *)
Definition touched (h h2 : handle) : Prop := h2 = h \/ exists w r, h2 = with_current h w r.

Lemma unknown_handle : forall m p h b q h2, unknown_prompt ndebug m p h = Ok (Goes (b, q, h2)) -> h2 = h.
Proof.
  intros m p h b q h2 H. unfold unknown_prompt, thenE in H.
  destruct (renew ndebug m (Some p) BPC_FAIL 0) as [[x|]| |]; try discriminate. injection H as _ _ E. auto.
Qed.
Lemma failure_handle : forall m p h b q h2, converse_failure ndebug m p h = Ok (Goes (b, q, h2)) -> h2 = h.
Proof.
  intros m p h b q h2 H. unfold converse_failure, thenE in H.
  destruct (renew ndebug m p 0 0) as [[x|]| |]; try discriminate. injection H as _ _ E. auto.
Qed.

Lemma reply_handle : forall m1 m2 fuel p w r h b q h2,
  reply ndebug m1 m2 fuel p w r h = Ok (Goes (b, q, h2)) -> exists r', h2 = with_current h w r'.
Proof.
  intros m1 m2 fuel p w r h b q h2 H. unfold reply in H.
  destruct (receive fuel 5 [] r) as [[g r1]| |]; try discriminate.
  destruct g as [raw| |].
  - destruct (bp_size raw) as [size| |]; try discriminate.
    destruct (bp_control raw) as [control| |]; try discriminate.
    destruct (renew ndebug m1 (Some (Some p)) control (u64 (size - MIN_SIZE))) as [[x|]| |]; try discriminate.
    cbn [thenE] in H. destruct x as [[x|]|].
    + destruct (size <=? 5); [injection H as _ _ E; exists r1; auto|].
      destruct (receive fuel (Z.to_nat (size - 5)) [] r1) as [[g2 r2]| |]; try discriminate.
      destruct g2 as [d| |].
      * destruct (put x 0 (size - 5) d); try discriminate. injection H as _ _ E. exists r2. auto.
      * apply unknown_handle in H. exists r2. exact H.
      * apply failure_handle in H. exists r2. exact H.
    + apply unknown_handle in H. exists r1. exact H.
    + apply unknown_handle in H. exists r1. exact H.
  - apply unknown_handle in H. exists r1. exact H.
  - apply failure_handle in H. exists r1. exact H.
Qed.

Lemma lift_inv : forall (r : res (ended (bool * option (option bp) * handle))) b q h2,
  thenE r (fun '(b, q, h) => Ok (Goes (b, q, Some h))) = Ok (Goes (b, q, Some h2)) ->
  r = Ok (Goes (b, q, h2)).
Proof.
  intros [[[[b' q'] h']|]| |] b q h2 H; try discriminate. cbn [thenE] in H. congruence.
Qed.

Lemma converse_handle : forall m0 m1 m2 fuel h prompt b q h2,
  pamc_converse exists_file start ndebug m0 m1 m2 fuel (Some h) prompt = Ok (Goes (b, q, Some h2)) ->
  touched h h2 \/ exists c d, touched (snd (choose exists_file start m0 h c d)) h2.
Proof.
  intros m0 m1 m2 fuel h prompt b q h2 H. unfold pamc_converse in H. cbv zeta in H.
  assert (P0 : forall x, thenE (renew ndebug m2 prompt 0 0) (fun q => Ok (Goes (false, q, Some x))) =
                       Ok (Goes (b, q, Some h2)) -> h2 = x).
  { intros x X. destruct (renew ndebug m2 prompt 0 0) as [[y|]| |]; try discriminate. cbn [thenE] in X. congruence. }
  destruct prompt as [[p|]|]; try (left; left; apply P0; exact H).
  destruct (bp_size p) as [size| |]; try discriminate.
  destruct (size <? MIN_SIZE). { apply lift_inv, unknown_handle in H. left. left. exact H. }
  destruct (bp_control p) as [c| |]; try discriminate.
  destruct (Z.of_nat (length p) <? size); try discriminate.
  destruct (negb (for_client c)). { apply lift_inv, unknown_handle in H. left. left. exact H. }
  right. exists c, (skipn 5 (firstn (Z.to_nat size) p)).
  destruct (choose exists_file start m0 h c (skipn 5 (firstn (Z.to_nat size) p))) as [ok h1]. cbn [snd].
  destruct ok; cbn [negb] in H; [|apply lift_inv, unknown_handle in H; left; exact H].
  destruct (current_agent h1) as [a|]; [|apply lift_inv, unknown_handle in H; left; exact H].
  destruct (send fuel (firstn (Z.to_nat size) p) (writer a)) as [[[|] w]| |]; try discriminate.
  - apply lift_inv, reply_handle in H. destruct H as (r' & E). right. exists w, r'. exact E.
  - apply lift_inv, unknown_handle in H. right. eexists. eexists. exact H.
Qed.

Lemma used_sound : forall h h2, used h h2 -> sound h -> sound h2.
Proof.
  intros h h2 U S. induction U; auto.
  - apply load_sound. auto.
  - apply disable_sound. auto.
  - destruct (converse_handle _ _ _ _ _ _ _ _ _ H) as [[E|(w & r & E)]|(c & d & [E|(w & r & E)])]; subst h2;
      try apply with_sound; try apply choose_sound; auto.
Qed.

Lemma start_sound : forall env, sound (pamc_start env).
Proof. intro env. constructor; cbn; auto; try constructor; discriminate. Qed.

Lemma used_paths_blocked : forall h h2, used h h2 ->
  paths h2 = paths h /\ (forall id, In id (blocked h) -> In id (blocked h2)) /\
  exists new, execs h2 = new ++ execs h.
Proof.
  assert (L : forall m h id, let h2 := snd (pamc_load exists_file start m h id) in
    paths h2 = paths h /\ (forall x, In x (blocked h) -> In x (blocked h2)) /\ exists new, execs h2 = new ++ execs h).
  { intros m h id. cbv zeta. unfold pamc_load.
    destruct (is_disabled h id); [repeat split; auto; exists []; reflexivity|].
    destruct (is_enabled h id); [repeat split; auto; exists []; reflexivity|].
    destruct (negb m); [repeat split; auto; exists []; reflexivity|].
    destruct (exec_agent exists_file start (paths h) id) as [[full [w r]]|]; [|repeat split; auto; exists []; reflexivity].
    repeat split; auto. exists [full]. reflexivity. }
  assert (C : forall m h c d, let h2 := snd (choose exists_file start m h c d) in
    paths h2 = paths h /\ (forall x, In x (blocked h) -> In x (blocked h2)) /\ exists new, execs h2 = new ++ execs h).
  { intros m h c d. cbv zeta. unfold choose.
    destruct (c =? BPC_SELECT); [|repeat split; auto; exists []; reflexivity].
    destruct (before_slash d) as [id|]; [|repeat split; auto; exists []; reflexivity].
    destruct (negb (valid_agent_id id)); [repeat split; auto; exists []; reflexivity|].
    assert (L' := L m h (cut_nul id)). cbv zeta in L'.
    destruct (pamc_load exists_file start m h (cut_nul id)) as [ok h1]. cbn [snd] in L'.
    destruct ok; [|exact L']. unfold select_agent. destruct (is_enabled h1 (cut_nul id)); exact L'. }
  assert (W : forall h w r, let h2 := with_current h w r in
    paths h2 = paths h /\ blocked h2 = blocked h /\ execs h2 = execs h).
  { intros h w r. cbv zeta. unfold with_current. destruct (current h); repeat split. }
  intros h h2 U. induction U as [h|h h' mem id U IH|h h' mem id U IH|h h' m0 m1 m2 fuel prompt b q h2 U IH H].
  - repeat split; auto. exists []. reflexivity.
  - destruct IH as (P & B & n & E). destruct (L mem h' id) as (P' & B' & n' & E').
    split; [congruence|]. split; [auto|]. exists (n' ++ n). rewrite E', E, app_assoc. reflexivity.
  - destruct IH as (P & B & n & E). unfold pamc_disable.
    destruct (is_enabled h' id); [repeat split; auto; exists n; exact E|].
    destruct (is_disabled h' id); [repeat split; auto; exists n; exact E|].
    destruct mem; cbn [snd paths blocked execs]; repeat split; auto; try (exists n; exact E).
    intros x X. right. auto.
  - destruct IH as (P & B & n & E).
    assert (G : exists h1, (paths h1 = paths h' /\ (forall x, In x (blocked h') -> In x (blocked h1)) /\
                 exists new, execs h1 = new ++ execs h') /\ touched h1 h2).
    { destruct (converse_handle _ _ _ _ _ _ _ _ _ H) as [T|(c & d & T)].
      - exists h'. split; [|exact T]. repeat split; auto. exists []. reflexivity.
      - eexists. split; [|exact T]. apply C. }
    destruct G as (h1 & (P1 & B1 & n1 & E1) & [T|(w & r & T)]); subst h2.
    + split; [congruence|]. split; [auto|]. exists (n1 ++ n). rewrite E1, E, app_assoc. reflexivity.
    + destruct (W h1 w r) as (P2 & B2 & E2). rewrite P2, B2, E2.
      split; [congruence|]. split; [auto|]. exists (n1 ++ n). rewrite E1, E, app_assoc. reflexivity.
Qed.

(** However the library is used after pamc_start: each agent runs at most once, and each program started is
    the file named by a loaded agent in one of the directories of the path, so never one outside them. *)
Theorem agents_come_from_path : forall env h, used (pamc_start env) h ->
  NoDup (map a_id (chain h)) /\
  Forall2 (program_of (start_paths env)) (map a_id (chain h)) (execs h).
Proof.
  intros env h U. assert (S := used_sound _ _ U (start_sound env)).
  destruct (used_paths_blocked _ _ U) as (P & _). destruct S as [S1 _ S3 _].
  split; [exact S1|]. rewrite P in S3. exact S3.
Qed.

(** A disabled agent is not running, and is never started, whatever prompts come. *)
Theorem disabled_agent_never_runs : forall env h mem id h1 h2,
  used (pamc_start env) h -> pamc_disable mem h id = (true, h1) -> used h1 h2 ->
  ~ In id (map a_id (chain h2)).
Proof.
  intros env h mem id h1 h2 U D U2.
  assert (S := used_sound _ _ U (start_sound env)).
  assert (S1 : sound h1) by (replace h1 with (snd (pamc_disable mem h id)) by (rewrite D; reflexivity);
                             apply disable_sound; exact S).
  destruct (used_paths_blocked _ _ U2) as (_ & B & _).
  apply (s_blocked _ (used_sound _ _ U2 S1)). apply B.
  unfold pamc_disable in D. destruct (is_enabled h id); [discriminate|].
  destruct (is_disabled h id) eqn:E.
  - injection D as <-. apply existsb_streq. exact E.
  - destruct mem; [|discriminate]. injection D as <-. left. reflexivity.
Qed.

(** Disabling comes too late for an agent that runs. *)
Theorem disable_of_running_refused : forall mem h id, In id (map a_id (chain h)) ->
  pamc_disable mem h id = (false, h).
Proof. intros mem h id H. unfold pamc_disable. apply enabled_in in H. rewrite H. reflexivity. Qed.

(** Loading an agent that exists in the path, is not disabled and can be started makes it run. *)
Theorem load_runs_first_found : forall h id p ps1 ps2 w r,
  ~ In id (blocked h) -> ~ In id (map a_id (chain h)) -> ~ In c_slash id ->
  paths h = ps1 ++ p :: ps2 ->
  (forall q, In q ps1 -> exists_file (q ++ lit "/" ++ id) = false) ->
  exists_file (p ++ lit "/" ++ id) = true -> start (p ++ lit "/" ++ id) = Some (w, r) ->
  exists h', pamc_load exists_file start true h id = (true, h') /\
    chain h' = mkAgent id w r :: chain h /\ execs h' = (p ++ lit "/" ++ id) :: execs h.
Proof.
  intros h id p ps1 ps2 w r Nb Nc Ns Hp N1 E St. unfold pamc_load.
  destruct (is_disabled h id) eqn:D; [apply existsb_streq in D; contradiction|].
  destruct (is_enabled h id) eqn:En; [apply enabled_in in En; contradiction|]. cbn [negb].
  unfold exec_agent. destruct (existsb (fun c => Ascii.eqb c c_slash) id) eqn:Sl.
  { apply existsb_exists in Sl. destruct Sl as (c & C & X). apply Ascii.eqb_eq in X. subst c. contradiction. }
  assert (F : find_agent exists_file (paths h) id = Some (p ++ lit "/" ++ id)).
  { rewrite Hp. clear Hp. induction ps1 as [|q ps1 IH].
    - cbn [app find_agent]. cbv zeta. rewrite E. reflexivity.
    - cbn [app find_agent]. cbv zeta. rewrite (N1 q) by (left; reflexivity). apply IH. intros x X. apply N1. right. exact X. }
  rewrite F, St. eexists. split; [reflexivity|]. split; reflexivity.
Qed.

(** ** Talking to an agent *)
(** The kernel gives no errors and no early end. *)
Definition smooth (l : list kstep) : Prop := Forall (fun k => k <> KFail /\ k <> KZero) l.

Lemma skipn_twice : forall (A : Type) i j (l : list A), skipn i (skipn j l) = skipn (j + i) l.
Proof.
  intros A i j. induction j as [|j IH]; intro l; [reflexivity|]. destruct l; [destruct i; reflexivity|apply IH].
Qed.

Lemma skipn_firstn_len : forall k (d : list ascii), skipn (length (firstn k d)) d = skipn k d.
Proof.
  intros k d. rewrite firstn_length. destruct (Nat.min_spec k (length d)) as [[L ->]|[L ->]]; [reflexivity|].
  rewrite skipn_all, skipn_all2 by exact L. reflexivity.
Qed.

Lemma send_all : forall fuel d w, d <> [] -> smooth (wplan w) -> (length (wplan w) < fuel)%nat ->
  exists w', send fuel d w = Ok (true, w') /\ received w' = received w ++ d.
Proof.
  induction fuel as [|f IH]; intros d w Nd Sm F; [lia|].
  destruct w as [rc pl]. cbn [wplan received] in *. cbn [send]. unfold sys_write. cbn [wplan received].
  destruct pl as [|k pl].
  { rewrite skipn_all. eexists. split; reflexivity. }
  inversion Sm as [|? ? [K1 K2] Sm']; subst. cbn [length] in F.
  destruct k as [| | |k]; try (contradiction K1; reflexivity); try (contradiction K2; reflexivity).
  - destruct d as [|c d]; [contradiction Nd; reflexivity|].
    destruct (IH (c :: d) (mkSink rc pl)) as (w' & E & R); [discriminate|exact Sm'|cbn; lia|].
    exists w'. split; [exact E|exact R].
  - assert (Sp := firstn_skipn (S k) d). rewrite skipn_firstn_len.
    destruct (skipn (S k) d) as [|c d2].
    + eexists. split; [reflexivity|]. cbn [received]. rewrite app_nil_r in Sp. rewrite Sp. reflexivity.
    + destruct (IH (c :: d2) (mkSink (rc ++ firstn (S k) d) pl)) as (w' & E' & R); [discriminate|exact Sm'|cbn; lia|].
      exists w'. split; [exact E'|]. rewrite R. cbn [received]. rewrite <- app_assoc, Sp. reflexivity.
Qed.

(** What a reading loop that gets all gives is what came next. *)
Lemma receive_is_next : forall fuel n have r x r', receive fuel n have r = Ok (GotAll x, r') ->
  exists d, length d = n /\ x = have ++ d /\ avail r = d ++ avail r'.
Proof.
  induction fuel as [|f IH]; intros n have r x r' H.
  - destruct n; [|discriminate]. injection H as <- <-. exists []. rewrite app_nil_r. auto.
  - destruct n as [|n]; [injection H as <- <-; exists []; rewrite app_nil_r; auto|].
    cbn [receive] in H. unfold sys_read in H. destruct r as [av pl]. cbn [plan avail] in *.
    assert (G : forall k (Hk : (k <= S n)%nat) pl', 
      match firstn k av with
      | [] => Ok (GotEnd, mkSrc (skipn k av) pl')
      | _ :: _ => receive f (S n - length (firstn k av)) (have ++ firstn k av) (mkSrc (skipn k av) pl')
      end = Ok (GotAll x, r') -> exists d, length d = S n /\ x = have ++ d /\ av = d ++ avail r').
    { intros k Hk pl' G. destruct (firstn k av) as [|c l] eqn:E; [discriminate|].
      apply IH in G. destruct G as (d & L & X & A). cbn [avail] in A.
      exists ((c :: l) ++ d). assert (Le : (length (c :: l) <= k)%nat) by (rewrite <- E; apply firstn_le_length).
      split; [rewrite app_length, L; lia|]. split; [rewrite X, <- app_assoc; reflexivity|].
      rewrite <- (firstn_skipn k av), E, A, app_assoc. reflexivity. }
    destruct pl as [|[| | |k] pl].
    + apply (G (S n) (le_n _) []). exact H.
    + apply IH in H. exact H.
    + discriminate.
    + discriminate.
    + apply (G (Nat.min (S k) (S n)) (Nat.le_min_r _ _) pl). exact H.
Qed.

(** With no errors and enough bytes, it gets all. *)
Lemma receive_all : forall fuel n have r, smooth (plan r) -> (length (plan r) < fuel)%nat ->
  (n <= length (avail r))%nat ->
  exists r', receive fuel n have r = Ok (GotAll (have ++ firstn n (avail r)), r') /\
    avail r' = skipn n (avail r) /\ smooth (plan r') /\ (length (plan r') <= length (plan r))%nat.
Proof.
  induction fuel as [|f IH]; intros n have r Sm F L; [lia|].
  destruct n as [|n]. { exists r. cbn [receive firstn skipn]. rewrite app_nil_r. auto. }
  cbn [receive]. unfold sys_read. destruct r as [av pl]. cbn [plan avail] in *.
  destruct pl as [|k pl].
  { destruct (firstn (S n) av) as [|c l] eqn:E.
    { destruct av; [simpl in L; lia|discriminate]. }
    assert (Le : length (c :: l) = S n) by (rewrite <- E, firstn_length; lia).
    rewrite Le, Nat.sub_diag. exists (mkSrc (skipn (S n) av) []).
    split; [destruct f; reflexivity|]. repeat split; auto. }
  inversion Sm as [|? ? [K1 K2] Sm']; subst. cbn [length] in F.
  destruct k as [| | |k]; try (contradiction K1; reflexivity); try (contradiction K2; reflexivity).
  - destruct (IH (S n) have (mkSrc av pl)) as (r' & E & A & S' & P); [exact Sm'|cbn; lia|exact L|].
    exists r'. cbn [avail plan] in *. repeat split; auto. cbn [length]. lia.
  - set (m := Nat.min (S k) (S n)). assert (Hm : (1 <= m <= S n)%nat) by (unfold m; lia).
    destruct (firstn m av) as [|c l] eqn:E.
    { destruct av; [simpl in L; lia|]. destruct m; [lia|discriminate]. }
    assert (Le : length (c :: l) = m) by (rewrite <- E, firstn_length; lia).
    destruct (IH (S n - length (c :: l))%nat (have ++ c :: l) (mkSrc (skipn m av) pl)) as (r' & E' & A & S' & P);
      [exact Sm'|cbn; lia|cbn [avail]; rewrite skipn_length; lia|].
    exists r'. cbn [avail plan] in *. split.
    { rewrite E', Le, <- app_assoc. rewrite <- E. do 4 f_equal.
      rewrite <- (firstn_skipn m av) at 3. rewrite firstn_app, firstn_firstn.
      rewrite firstn_length. replace (Nat.min (S n) m) with m by lia.
      replace (Nat.min m (length av)) with m by lia. reflexivity. }
    split.
    { rewrite A, Le. rewrite skipn_twice. f_equal. lia. }
    split; [exact S'|]. cbn [length]. lia.
Qed.

Lemma drop_encode : forall c d, sendable c d -> bp_drop (Some (encode c d)) = Ok tt.
Proof.
  intros c d S. cbn [bp_drop]. rewrite encode_size by exact S. cbn [bind]. rewrite encode_len.
  destruct (6 + Z.of_nat (length d) <? 5 + Z.of_nat (length d)) eqn:E; [apply Z.ltb_lt in E; lia|reflexivity].
Qed.

Lemma put_all : forall c d z, length z = length d ->
  put (encode c z) 0 (Z.of_nat (length d)) d = Ok (encode c d).
Proof.
  intros c d z L. change 0 with (Z.of_nat 0). rewrite put_encode by lia.
  unfold overwrite. cbn [firstn Nat.add app]. rewrite skipn_all2 by lia. rewrite app_nil_r. reflexivity.
Qed.

Lemma message_firstn : forall c d, sendable c d ->
  firstn (Z.to_nat (5 + Z.of_nat (length d))) (encode c d) = message c d.
Proof.
  intros c d S. unfold encode. rewrite firstn_app.
  assert (L : length (message c d) = (5 + length d)%nat).
  { unfold message. rewrite app_length, be32_len. cbn [length]. lia. }
  replace (Z.to_nat (5 + Z.of_nat (length d))) with (length (message c d)) by lia.
  rewrite firstn_all, Nat.sub_diag. cbn [firstn]. apply app_nil_r.
Qed.

Lemma message_split : forall c d rest,
  firstn 5 (message c d ++ rest) = be32 (5 + Z.of_nat (length d)) ++ [byte c] /\
  skipn 5 (message c d ++ rest) = d ++ rest.
Proof. intros. split; reflexivity. Qed.

(** The reply an agent sends comes back as it is, however the kernel cuts it, and the rest of what the
    agent sends stays for the next call. *)
Lemma reply_value : forall m2 fuel c d p w r h c' d' rest,
  sendable c d -> p = encode c d -> sendable c' d' ->
  avail r = message c' d' ++ rest -> smooth (plan r) -> (length (plan r) < fuel)%nat ->
  exists r', reply ndebug true m2 fuel p w r h =
               Ok (Goes (true, Some (Some (encode c' d')), with_current h w r')) /\ avail r' = rest.
Proof.
  intros m2 fuel c d p w r h c' d' rest S Ep S' A Sm F. subst p. unfold reply.
  destruct (message_split c' d' rest) as [M1 M2].
  destruct (receive_all fuel 5 [] r Sm F) as (r1 & E1 & A1 & Sm1 & P1).
  { rewrite A, app_length. unfold message. rewrite app_length, be32_len. cbn [length]. lia. }
  rewrite E1. cbn [app]. rewrite A in *. rewrite M1.
  assert (Len : 0 <= 5 + Z.of_nat (length d') < 2147483648) by (destruct S'; lia).
  rewrite size_be32 by exact Len.
  assert (bp_control (be32 (5 + Z.of_nat (length d')) ++ [byte c']) = Ok c') as ->.
  { unfold bp_control, be32. cbn [app nth_error]. rewrite oct_byte, Z.mod_small by (destruct S'; lia). reflexivity. }
  unfold renew. rewrite drop_encode by exact S.
  assert (u64 (5 + Z.of_nat (length d') - MIN_SIZE) = Z.of_nat (length d')) as ->.
  { unfold u64, MIN_SIZE. rewrite Z.mod_small; [lia|]. change (2 ^ 64) with 18446744073709551616. lia. }
  rewrite make_value by exact S'. cbn [thenE].
  destruct (5 + Z.of_nat (length d') <=? 5) eqn:Z5.
  { apply Z.leb_le in Z5. destruct d' as [|x d']; [|cbn [length] in Z5; lia].
    exists r1. split; [reflexivity|]. rewrite A1, M2. reflexivity. }
  replace (Z.to_nat (5 + Z.of_nat (length d') - 5)) with (length d') by lia.
  destruct (receive_all fuel (length d') [] r1 Sm1) as (r2 & E2 & A2 & _).
  { lia. }
  { rewrite A1, M2, app_length. lia. }
  rewrite E2. cbn [app]. rewrite A1, M2 in *.
  rewrite firstn_app, Nat.sub_diag, firstn_all. cbn [firstn]. rewrite app_nil_r.
  replace (5 + Z.of_nat (length d') - 5) with (Z.of_nat (length d')) by lia.
  rewrite put_all by apply repeat_length.
  exists r2. split; [reflexivity|]. rewrite A2, skipn_app, Nat.sub_diag, skipn_all. reflexivity.
Qed.

Lemma current_with : forall h a w r, current_agent h = Some a ->
  current_agent (with_current h w r) = Some (mkAgent (a_id a) w r).
Proof.
  intros h a w r H. unfold current_agent, with_current in *. destruct (current h) as [id|]; [|discriminate].
  cbn [current chain]. induction (chain h) as [|b l IH]; [discriminate|].
  cbn [map find] in *. destruct (streq (a_id b) id) eqn:E.
  - injection H as <-. cbn [a_id]. rewrite E. reflexivity.
  - rewrite E. apply IH. exact H.
Qed.

(** A prompt for the client that has chosen its agent reaches that agent whole, and the answer comes back
    whole; in between nothing is lost, whatever the sizes of the kernel's reads and writes. *)
Theorem converse_exchanges : forall m0 m2 fuel h h1 a c d c' d' rest,
  sendable c d -> 1 <= c <= 4 -> sendable c' d' ->
  choose exists_file start m0 h c d = (true, h1) -> current_agent h1 = Some a ->
  smooth (wplan (writer a)) -> smooth (plan (reader a)) ->
  (length (wplan (writer a)) < fuel)%nat -> (length (plan (reader a)) < fuel)%nat ->
  avail (reader a) = message c' d' ++ rest ->
  exists h2 a2,
    pamc_converse exists_file start ndebug m0 true m2 fuel (Some h) (Some (Some (encode c d))) =
      Ok (Goes (true, Some (Some (encode c' d')), Some h2)) /\
    current_agent h2 = Some a2 /\ a_id a2 = a_id a /\
    received (writer a2) = received (writer a) ++ message c d /\ avail (reader a2) = rest.
Proof.
  intros m0 m2 fuel h h1 a c d c' d' rest S C S' Ch Cu W R Fw Fr A.
  unfold pamc_converse. cbv zeta. rewrite encode_size by exact S.
  destruct (5 + Z.of_nat (length d) <? MIN_SIZE) eqn:E1; [apply Z.ltb_lt in E1; unfold MIN_SIZE in E1; lia|].
  rewrite encode_control by exact S. rewrite encode_len.
  destruct (6 + Z.of_nat (length d) <? 5 + Z.of_nat (length d)) eqn:E2; [apply Z.ltb_lt in E2; lia|].
  assert (for_client c = true) as ->.
  { unfold for_client, BPC_FAIL, BPC_OK. apply andb_true_iff. split; apply Z.leb_le; lia. }
  cbn [negb]. rewrite message_firstn by exact S.
  change (skipn 5 (message c d)) with d. rewrite Ch. cbn [negb]. rewrite Cu.
  destruct (send_all fuel (message c d) (writer a)) as (w' & Sd & Rc); [discriminate|exact W|exact Fw|].
  rewrite Sd.
  destruct (reply_value m2 fuel c d (encode c d) w' (reader a) h1 c' d' rest S eq_refl S' A R Fr) as (r' & Rp & Av).
  rewrite Rp. cbn [thenE]. exists (with_current h1 w' r'), (mkAgent (a_id a) w' r').
  split; [reflexivity|]. split; [apply current_with; exact Cu|]. split; [reflexivity|]. split; [exact Rc|exact Av].
Qed.

(** A prompt that selects an agent speaks to the agent it names, or the client is told of failure. *)
Theorem select_means_named : forall m0 h id args h1,
  ~ In c_slash id -> is_cstr id ->
  choose exists_file start m0 h BPC_SELECT (id ++ c_slash :: args) = (true, h1) ->
  exists a, current_agent h1 = Some a /\ a_id a = id /\ ~ In id (blocked h).
Proof.
  intros m0 h id args h1 Ns Hc H. unfold choose in H. rewrite Z.eqb_refl in H.
  assert (B : before_slash (id ++ c_slash :: args) = Some id).
  { clear - Ns. induction id as [|c r IH]; [reflexivity|]. cbn [app before_slash].
    destruct (Ascii.eqb_spec c c_slash) as [->|N]; [contradiction Ns; left; reflexivity|].
    rewrite IH; [reflexivity|]. intro X. apply Ns. right. exact X. }
  assert (K : cut_nul id = id).
  { clear - Hc. unfold is_cstr in Hc. induction id as [|c r IH]; [reflexivity|]. cbn [cut_nul].
    destruct (Ascii.eqb_spec c NUL) as [->|N]; [contradiction Hc; left; reflexivity|].
    rewrite IH; [reflexivity|]. intro X. apply Hc. right. exact X. }
  rewrite B, K in H. destruct (negb (valid_agent_id id)); [discriminate|].
  destruct (pamc_load exists_file start m0 h id) as [ok h2] eqn:L. destruct ok; [|discriminate].
  unfold select_agent in H. destruct (is_enabled h2 id) eqn:En; [|discriminate].
  injection H as <-. unfold is_enabled in En. apply existsb_exists in En. destruct En as (a & I & E).
  unfold current_agent. cbn [current chain].
  destruct (find (fun a0 => streq (a_id a0) id) (chain h2)) as [b|] eqn:F.
  - exists b. split; [reflexivity|]. apply find_some in F. destruct F as [_ F]. apply streq_eq in F.
    split; [exact F|]. intro X. unfold pamc_load in L.
    assert (is_disabled h id = true) as Y by (apply existsb_streq; exact X). rewrite Y in L. discriminate.
  - exfalso. assert (X := find_none _ _ F a I). cbv beta in X. congruence.
Qed.

(** An agent whose answers have sizes of at least 5 and below 2^31. *)
Definition decent (l : list ascii) : Prop :=
  forall a b c d rest, l = a :: b :: c :: d :: rest ->
    oct a < 128 /\ 5 <= oct a * 16777216 + oct b * 65536 + oct c * 256 + oct d.

Lemma unknown_safe : forall m p h, (forall x, p = Some x -> exists c d, sendable c d /\ x = encode c d) ->
  unknown_prompt ndebug m p h = Ok (Goes (true, Some (Some (encode BPC_FAIL [])), h)) \/
  (m = false /\ unknown_prompt ndebug m p h = if ndebug then Ok (Goes (true, Some None, h)) else Ok Exits).
Proof.
  intros m p h H. unfold unknown_prompt, renew.
  assert (D : bp_drop p = Ok tt).
  { destruct p as [x|]; [|reflexivity]. destruct (H x eq_refl) as (c & d & S & ->). apply drop_encode. exact S. }
  rewrite D. destruct m.
  - left. assert (M : bp_make ndebug true BPC_FAIL 0 = Ok (Goes (Some (encode BPC_FAIL [])))).
    { apply (make_value ndebug BPC_FAIL []). unfold sendable, BPC_FAIL. cbn. lia. }
    rewrite M. reflexivity.
  - right. split; [reflexivity|]. destruct ndebug; reflexivity.
Qed.

Lemma failure_safe : forall m p h, (exists c d, sendable c d /\ p = encode c d) ->
  converse_failure ndebug m (Some (Some p)) h = Ok (Goes (false, Some None, h)).
Proof.
  intros m p h (c & d & S & ->). unfold converse_failure, renew. rewrite drop_encode by exact S. reflexivity.
Qed.

(** What a call of pamc_converse may come to: the client is given the agent's answer, or a prompt saying
    failure, or FALSE and no prompt; or, only without memory, the process ends. *)
Inductive outcome (sent : list ascii) : res (ended (bool * option (option bp) * handle)) -> Prop :=
| o_answer : forall c d rest h, sendable c d -> sent = message c d ++ rest ->
    outcome sent (Ok (Goes (true, Some (Some (encode c d)), h)))
| o_fail : forall h, outcome sent (Ok (Goes (true, Some (Some (encode BPC_FAIL [])), h)))
| o_false : forall h, outcome sent (Ok (Goes (false, Some None, h)))
| o_memory : forall h, ndebug = true -> outcome sent (Ok (Goes (true, Some None, h)))
| o_exit : ndebug = false -> outcome sent (Ok Exits).

Lemma receive_outcome : forall fuel n have r, (S (length (plan r)) < fuel)%nat ->
  (exists x r', receive fuel n have r = Ok (GotAll x, r') /\ (length (plan r') <= length (plan r))%nat) \/
  (exists r', receive fuel n have r = Ok (GotError, r')) \/ (exists r', receive fuel n have r = Ok (GotEnd, r')).
Proof.
  induction fuel as [|f IH]; intros n have r F; [lia|].
  destruct n as [|n]; [left; exists have, r; auto|].
  cbn [receive]. unfold sys_read. destruct r as [av pl]. cbn [plan avail] in *.
  destruct pl as [|[| | |k] pl].
  - destruct (firstn (S n) av) as [|c l] eqn:E; [right; right; eexists; reflexivity|].
    destruct (Nat.le_gt_cases (S n) (length av)) as [Le|Gt].
    + assert (Le2 : length (c :: l) = S n) by (rewrite <- E, firstn_length; lia).
      rewrite Le2, Nat.sub_diag. left. eexists. eexists. split; [destruct f; reflexivity|]. cbn [plan]. lia.
    + rewrite skipn_all2 by lia.
      assert (Le2 : (length (c :: l) < S n)%nat) by (rewrite <- E, firstn_length; lia).
      destruct (S n - length (c :: l))%nat as [|m] eqn:Em; [lia|].
      destruct f as [|f]; [cbn [length] in F; lia|].
      cbn [receive]. unfold sys_read. cbn [plan avail firstn]. right. right. eexists. reflexivity.
  - destruct (IH (S n) have (mkSrc av pl)) as [(x & r' & E & L)|[(r' & E)|(r' & E)]]; [cbn in *; lia| | |].
    + left. exists x, r'. cbn [plan length] in *. split; [exact E|lia].
    + right. left. exists r'. exact E.
    + right. right. exists r'. exact E.
  - right. left. eexists. reflexivity.
  - right. right. eexists. reflexivity.
  - destruct (firstn (Nat.min (S k) (S n)) av) as [|c l]; [right; right; eexists; reflexivity|].
    destruct (IH (S n - length (c :: l))%nat (have ++ c :: l) (mkSrc (skipn (Nat.min (S k) (S n)) av) pl))
      as [(x & r' & E & L)|[(r' & E)|(r' & E)]]; [cbn in *; lia| | |].
    + left. exists x, r'. cbn [plan length] in *. split; [exact E|lia].
    + right. left. exists r'. exact E.
    + right. right. exists r'. exact E.
Qed.

Lemma send_ends : forall fuel d w, d <> [] -> (length (wplan w) < fuel)%nat ->
  exists b w', send fuel d w = Ok (b, w').
Proof.
  induction fuel as [|f IH]; intros d w Nd F; [lia|].
  destruct w as [rc pl]. cbn [wplan] in *. cbn [send]. unfold sys_write. cbn [wplan received].
  destruct pl as [|k pl].
  { rewrite skipn_all. eexists. eexists. reflexivity. }
  cbn [length] in F. destruct k as [| | |k].
  - destruct d as [|c d]; [contradiction Nd; reflexivity|]. apply IH; [discriminate|cbn; lia].
  - eexists. eexists. reflexivity.
  - cbn [length skipn]. destruct d as [|c d]; [contradiction Nd; reflexivity|]. apply IH; [discriminate|cbn; lia].
  - rewrite skipn_firstn_len. destruct (skipn (S k) d) as [|c d2]; [eexists; eexists; reflexivity|].
    apply IH; [discriminate|cbn; lia].
Qed.

Lemma unknown_outcome : forall sent m p h, (forall x, p = Some x -> exists c d, sendable c d /\ x = encode c d) ->
  outcome sent (unknown_prompt ndebug m p h).
Proof.
  intros sent m p h H. destruct (unknown_safe m p h H) as [->|[_ ->]]; [apply o_fail|].
  destruct ndebug eqn:E; [apply o_memory; exact E|apply o_exit; exact E].
Qed.
Lemma failure_outcome : forall sent m p h, (exists c d, sendable c d /\ p = encode c d) ->
  outcome sent (converse_failure ndebug m (Some (Some p)) h).
Proof. intros sent m p h H. rewrite failure_safe by exact H. apply o_false. Qed.

Lemma reply_safe : forall m1 m2 fuel c d w r h, sendable c d -> (S (length (plan r)) < fuel)%nat ->
  decent (avail r) -> outcome (avail r) (reply ndebug m1 m2 fuel (encode c d) w r h).
Proof.
  intros m1 m2 fuel c d w r h S F D. unfold reply.
  assert (Ex : exists c0 d0, sendable c0 d0 /\ encode c d = encode c0 d0) by (exists c, d; auto).
  assert (Ex2 : forall x, Some (encode c d) = Some x -> exists c0 d0, sendable c0 d0 /\ x = encode c0 d0)
    by (intros x X; injection X as <-; exact Ex).
  destruct (receive_outcome fuel 5 [] r F) as [(x & r' & E & L)|[(r' & E)|(r' & E)]]; rewrite E;
    [|apply unknown_outcome; exact Ex2|apply failure_outcome; exact Ex].
  destruct (receive_is_next _ _ _ _ _ _ E) as (raw & Lr & X & A). cbn [app] in X. subst x.
  destruct raw as [|a [|b [|e [|g [|k [|? ?]]]]]]; try discriminate. clear Lr.
  destruct (D a b e g (k :: avail r')) as [D1 D2]; [exact A|].
  cbn [bp_size]. destruct (128 <=? oct a) eqn:E1; [apply Z.leb_le in E1; lia|].
  change (2 ^ 24) with 16777216. change (2 ^ 16) with 65536. change (2 ^ 8) with 256.
  set (size := oct a * 16777216 + oct b * 65536 + oct e * 256 + oct g) in *.
  assert (Sz : size < 2147483648).
  { assert (Hb := oct_range b). assert (He := oct_range e). assert (Hg := oct_range g). unfold size. lia. }
  unfold bp_control. cbn [nth_error]. unfold renew. rewrite drop_encode by exact S.
  assert (Hk := oct_range k).
  destruct (Z.eq_dec (oct k) 0) as [K0|K0].
  { unfold bp_make. rewrite K0. cbn [Z.eqb thenE]. apply unknown_outcome. discriminate. }
  destruct m1.
  2:{ unfold bp_make. destruct (oct k =? 0) eqn:E2; [apply Z.eqb_eq in E2; contradiction|]. cbn [negb].
      unfold bp_assert. destruct ndebug eqn:Nd; cbn [thenE]; [|apply o_exit; exact Nd].
      assert (U := unknown_outcome (avail r) m2 None (with_current h w r')). rewrite Nd in U. apply U. discriminate. }
  assert (u64 (size - MIN_SIZE) = Z.of_nat (length (repeat NUL (Z.to_nat (size - 5))))) as ->.
  { rewrite repeat_length. unfold u64, MIN_SIZE. rewrite Z.mod_small; [lia|].
    change (2 ^ 64) with 18446744073709551616. lia. }
  assert (Sk : sendable (oct k) (repeat NUL (Z.to_nat (size - 5)))).
  { unfold sendable. rewrite repeat_length. lia. }
  rewrite make_value by exact Sk. cbn [thenE]. rewrite repeat_length.
  assert (Hd : forall dd, Z.of_nat (length dd) = size - 5 ->
     message (oct k) dd = [a; b; e; g; k] ++ dd).
  { intros dd Hl. unfold message. rewrite byte_oct. replace (5 + Z.of_nat (length dd)) with size by lia.
    unfold size. rewrite be32_of. reflexivity. }
  destruct (size <=? 5) eqn:E5.
  { apply Z.leb_le in E5. replace (size - 5) with 0 by lia. cbn [Z.to_nat repeat].
    apply (o_answer _ (oct k) [] (avail r')); [unfold sendable; cbn; lia|].
    rewrite Hd by (cbn; lia). exact A. }
  apply Z.leb_gt in E5.
  destruct (receive_outcome fuel (Z.to_nat (size - 5)) [] r') as [(x & r2 & E2 & L2)|[(r2 & E2)|(r2 & E2)]];
    [lia| | |]; rewrite E2.
  - destruct (receive_is_next _ _ _ _ _ _ E2) as (dd & Ld & X & A2). cbn [app] in X. subst x.
    replace (size - 5) with (Z.of_nat (length dd)) by lia. rewrite Nat2Z.id.
    rewrite put_all by apply repeat_length.
    apply (o_answer _ (oct k) dd (avail r2)); [unfold sendable; lia|].
    rewrite Hd by lia. rewrite A, A2, <- app_assoc. reflexivity.
  - apply unknown_outcome. intros x X. injection X as <-. eexists. eexists. split; [exact Sk|reflexivity].
  - apply failure_outcome. eexists. eexists. split; [exact Sk|reflexivity].
Qed.

(** Whatever the client's prompt, the kernel and the agent do: if the agent's answer declares a size of at
    least 5 and less than 2^31, the call stays within its blocks, and gives the client the agent's answer
    unchanged, or a prompt saying failure, or FALSE with no prompt. *)
Theorem converse_outcomes : forall m0 m1 m2 fuel h c d ok h1 sent,
  sendable c d -> choose exists_file start m0 h c d = (ok, h1) ->
  sent = match current_agent h1 with Some a => avail (reader a) | None => [] end ->
  (forall a, current_agent h1 = Some a -> decent (avail (reader a)) /\
     (length (wplan (writer a)) < fuel)%nat /\ (S (length (plan (reader a))) < fuel)%nat) ->
  exists r, outcome sent r /\
    pamc_converse exists_file start ndebug m0 m1 m2 fuel (Some h) (Some (Some (encode c d))) =
    thenE r (fun '(b, q, h) => Ok (Goes (b, q, Some h))).
Proof.
  intros m0 m1 m2 fuel h c d ok h1 sent S Ch Hs H.
  unfold pamc_converse. cbv zeta. rewrite encode_size by exact S.
  destruct (5 + Z.of_nat (length d) <? MIN_SIZE) eqn:E1; [apply Z.ltb_lt in E1; unfold MIN_SIZE in E1; lia|].
  rewrite encode_control by exact S. rewrite encode_len.
  destruct (6 + Z.of_nat (length d) <? 5 + Z.of_nat (length d)) eqn:E2; [apply Z.ltb_lt in E2; lia|].
  assert (Ex2 : forall x, Some (encode c d) = Some x -> exists c0 d0, sendable c0 d0 /\ x = encode c0 d0)
    by (intros x X; injection X as <-; exists c, d; auto).
  assert (U : forall h, exists r, outcome sent r /\
    thenE (unknown_prompt ndebug m2 (Some (encode c d)) h) (fun '(b, q, h) => Ok (Goes (b, q, Some h))) =
    thenE r (fun '(b, q, h) => Ok (Goes (b, q, Some h)))).
  { intro x. eexists. split; [|reflexivity]. apply unknown_outcome. exact Ex2. }
  destruct (negb (for_client c)); [apply U|].
  rewrite message_firstn by exact S. change (skipn 5 (message c d)) with d. rewrite Ch.
  destruct ok; cbn [negb]; [|apply U].
  destruct (current_agent h1) as [a|] eqn:Cu; [|apply U].
  destruct (H a eq_refl) as (D & F1 & F2).
  destruct (send_ends fuel (message c d) (writer a)) as (b & w & Sd); [discriminate|exact F1|]. rewrite Sd.
  destruct b; [|apply U].
  eexists. split; [|reflexivity]. subst sent. apply reply_safe; assumption.
Qed.

(** An agent whose answer declares a size below 4 makes the client write past the block it allocates. *)
Theorem any_answer_is_safe_refuted : forall c d, sendable c d ->
  exists sent, length sent = 5%nat /\
  forall m2 w h, reply ndebug true m2 1 (encode c d) w (mkSrc sent []) h = UB.
Proof.
  intros c d S. exists (map chr [0; 0; 0; 3; 1]%nat). split; [reflexivity|].
  intros m2 w h. unfold reply. cbn [receive]. unfold sys_read. cbn [plan avail map firstn length Nat.sub app receive].
  assert (bp_size [chr 0; chr 0; chr 0; chr 3; chr 1] = Ok 3) as -> by reflexivity.
  assert (bp_control [chr 0; chr 0; chr 0; chr 3; chr 1] = Ok 1) as -> by reflexivity.
  unfold renew. rewrite drop_encode by exact S. reflexivity.
Qed.
End Handles.

(** A client talks to the agent ssh, whose answer comes in two pieces. *)
Example converse_ex :
  let files f := streq f (lit "/lib/pamc/ssh") in
  let out := message 1 (lit "ok") in
  let start _ := Some (mkSink [] [KIntr; KTake 2], mkSrc out [KTake 2; KIntr]) in
  let h := pamc_start None in
  let p := encode 2 (lit "ssh/host") in
  exists h2, pamc_converse files start false true true true 9 (Some h) (Some (Some p)) =
    Ok (Goes (true, Some (Some (encode 1 (lit "ok"))), Some h2)) /\
  execs h2 = [lit "/lib/pamc/ssh"] /\
  map (fun a => received (writer a)) (chain h2) = [message 2 (lit "ssh/host")].
Proof. eexists. split; [vm_compute; reflexivity|]. split; vm_compute; reflexivity. Qed.
Example disabled_ex :
  let files f := streq f (lit "/lib/pamc/ssh") in
  let start _ := Some (mkSink [] [], mkSrc (message 1 (lit "ok")) []) in
  let h := snd (pamc_disable true (pamc_start None) (lit "ssh")) in
  pamc_converse files start false true true true 9 (Some h) (Some (Some (encode 2 (lit "ssh/host")))) =
    Ok (Goes (true, Some (Some (encode 4 [])), Some h)) /\ execs h = [].
Proof. split; vm_compute; reflexivity. Qed.
Example decent_ex : decent (message 1 (lit "ok")).
Proof. intros a b c d rest H. vm_compute in H. injection H as <- <- <- <- _. vm_compute. split; [reflexivity|discriminate]. Qed.

(** ** Listing the agents *)
(** The order of strcmp. *)
Definition before (a b : cstr) : Prop := strcmp a b = Lt.

Lemma strcmp_refl : forall a, strcmp a a = Eq.
Proof. induction a as [|x a IH]; [reflexivity|]. cbn [strcmp]. rewrite Nat.compare_refl. exact IH. Qed.

Lemma ord_inj : forall x y, ord x = ord y -> x = y.
Proof. intros x y H. rewrite <- (ascii_nat_embedding x), <- (ascii_nat_embedding y). f_equal. exact H. Qed.

Lemma strcmp_eq : forall a b, strcmp a b = Eq -> a = b.
Proof.
  induction a as [|x a IH]; intros [|y b] H; try discriminate; [reflexivity|]. cbn [strcmp] in H.
  destruct (Nat.compare_spec (ord x) (ord y)) as [E|E|E]; try discriminate.
  apply ord_inj in E. subst y. f_equal. apply IH. exact H.
Qed.

Lemma strcmp_gt : forall a b, strcmp a b = Gt -> before b a.
Proof.
  unfold before. induction a as [|x a IH]; intros [|y b] H; try discriminate; [reflexivity|].
  cbn [strcmp] in *. rewrite Nat.compare_antisym.
  destruct (Nat.compare_spec (ord x) (ord y)); try discriminate; cbn [CompOpp]; auto.
Qed.

Lemma before_trans : forall a b c, before a b -> before b c -> before a c.
Proof.
  unfold before. induction a as [|x a IH]; intros [|y b] [|z c] H1 H2; try discriminate; try reflexivity.
  cbn [strcmp] in *.
  destruct (Nat.compare_spec (ord x) (ord y)) as [E|E|E]; try discriminate.
  - rewrite E. destruct (Nat.compare_spec (ord y) (ord z)); try discriminate; [|reflexivity]. eapply IH; eauto.
  - destruct (Nat.compare_spec (ord y) (ord z)) as [E'|E'|E']; try discriminate.
    + rewrite <- E'. destruct (Nat.compare_spec (ord x) (ord y)); try lia. reflexivity.
    + destruct (Nat.compare_spec (ord x) (ord z)); try lia. reflexivity.
Qed.

Lemma add_in : forall t id x, In x (in_order (fst (add_node t id))) <-> x = id \/ In x (in_order t).
Proof.
  induction t as [|l IHl n y r IHr]; intros id x.
  - cbn. intuition.
  - cbn [add_node]. destruct (strcmp id y) eqn:C.
    + apply strcmp_eq in C. subst y. cbn [fst in_order]. rewrite in_app_iff. cbn [In]. intuition.
    + specialize (IHl id x). destruct (add_node l id) as [l' k]. cbn [fst in_order] in *.
      rewrite !in_app_iff. cbn [In]. rewrite IHl. intuition.
    + specialize (IHr id x). destruct (add_node r id) as [r' k]. cbn [fst in_order] in *.
      rewrite !in_app_iff. cbn [In]. rewrite IHr. intuition.
Qed.

Lemma sorted_app : forall l x r, StronglySorted before (l ++ x :: r) <->
  StronglySorted before l /\ StronglySorted before r /\
  (forall a, In a l -> before a x) /\ (forall a, In a r -> before x a) /\
  (forall a b, In a l -> In b r -> before a b).
Proof.
  induction l as [|y l IH]; intros x r; cbn [app].
  - split.
    + intro H. inversion H as [|? ? S F]; subst. split; [constructor|]. split; [exact S|].
      split; [contradiction|]. split; [|contradiction]. intros a A. rewrite Forall_forall in F. auto.
    + intros (_ & S & _ & F & _). constructor; [exact S|]. apply Forall_forall. exact F.
  - split.
    + intro H. inversion H as [|? ? S F]; subst. rewrite Forall_forall in F. apply IH in S.
      destruct S as (S1 & S2 & S3 & S4 & S5). split.
      { constructor; [exact S1|]. apply Forall_forall. intros a A. apply F. apply in_or_app. left. exact A. }
      split; [exact S2|]. split.
      { intros a [<-|A]; [apply F; apply in_or_app; right; left; reflexivity|auto]. }
      split; [exact S4|]. intros a b [<-|A] B; [apply F; apply in_or_app; right; right; exact B|auto].
    + intros (S1 & S2 & S3 & S4 & S5). inversion S1 as [|? ? S F]; subst. rewrite Forall_forall in F. constructor.
      * apply IH. split; [exact S|]. split; [exact S2|]. split; [intros a A; apply S3; right; exact A|].
        split; [exact S4|]. intros a b A B. apply S5; [right; exact A|exact B].
      * apply Forall_forall. intros a A. apply in_app_or in A. destruct A as [A|[<-|A]]; [auto| |].
        -- apply S3. left. reflexivity.
        -- apply S5; [left; reflexivity|exact A].
Qed.

Lemma add_sorted : forall t id, StronglySorted before (in_order t) ->
  StronglySorted before (in_order (fst (add_node t id))).
Proof.
  induction t as [|l IHl n y r IHr]; intros id S.
  - cbn. constructor; constructor.
  - cbn [in_order] in S. apply sorted_app in S. destruct S as (S1 & S2 & S3 & S4 & S5).
    cbn [add_node]. destruct (strcmp id y) eqn:C.
    + cbn [fst in_order]. apply sorted_app. auto.
    + assert (I := add_in l id). specialize (IHl id S1).
      destruct (add_node l id) as [l' k]. cbn [fst in_order] in *. apply sorted_app.
      split; [exact IHl|]. split; [exact S2|]. split; [intros a A; apply I in A; destruct A as [->|A]; [exact C|auto]|].
      split; [exact S4|]. intros a b A B. apply I in A. destruct A as [->|A]; [|auto].
      apply (before_trans _ y); [exact C|auto].
    + apply strcmp_gt in C. assert (I := add_in r id). specialize (IHr id S2).
      destruct (add_node r id) as [r' k]. cbn [fst in_order] in *. apply sorted_app.
      split; [exact S1|]. split; [exact IHr|]. split; [exact S3|].
      split; [intros a A; apply I in A; destruct A as [->|A]; [exact C|auto]|].
      intros a b A B. apply I in B. destruct B as [->|B]; [|auto].
      apply (before_trans _ y); [auto|exact C].
Qed.

(** What the caller's counter gains: one for the first name, none for those put below it. *)
Lemma add_counts : forall t id, snd (add_node t id) = match t with Leaf => 1 | _ => 0 end.
Proof.
  intros [|l n y r] id; [reflexivity|]. cbn [add_node]. destruct (strcmp id y); try reflexivity.
  - destruct (add_node l id). reflexivity.
  - destruct (add_node r id). reflexivity.
Qed.

Lemma add_not_leaf : forall t id, fst (add_node t id) <> Leaf.
Proof.
  intros [|l n y r] id; [discriminate|]. cbn [add_node]. destruct (strcmp id y); try discriminate.
  - destruct (add_node l id). discriminate.
  - destruct (add_node r id). discriminate.
Qed.

Lemma add_all_spec : forall names t total, StronglySorted before (in_order t) ->
  total = match t with Leaf => 0 | _ => 1 end ->
  let (t', total') := add_all t total names in
  StronglySorted before (in_order t') /\
  (forall x, In x (in_order t') <-> In x (in_order t) \/ (In x names /\ valid_agent_id x = true)) /\
  total' = match t' with Leaf => 0 | _ => 1 end.
Proof.
  induction names as [|n names IH]; intros t total S T.
  - cbn. split; [exact S|]. split; [intuition|exact T].
  - cbn [add_all]. destruct (valid_agent_id n) eqn:V.
    + assert (S' := add_sorted t n S). assert (C := add_counts t n). assert (N := add_not_leaf t n).
      assert (I := add_in t n).
      destruct (add_node t n) as [t1 k]. cbn [fst snd] in *.
      specialize (IH t1 (total + k) S').
      destruct (add_all t1 (total + k) names) as [t' total'].
      destruct IH as (A & B & D).
      { subst total k. destruct t1; [contradiction N; reflexivity|]. destruct t; reflexivity. }
      split; [exact A|]. split; [|exact D]. intro x. rewrite B, I. cbn [In].
      split; [intros [[->|X]|[X Y]]; auto|intros [X|[[->|X] Y]]; auto].
    + specialize (IH t total S T). destruct (add_all t total names) as [t' total'].
      destruct IH as (A & B & D). split; [exact A|]. split; [|exact D]. intro x. rewrite B. cbn [In].
      split; [intros [X|[X Y]]; auto|intros [X|[[->|X] Y]]; auto]. congruence.
Qed.

(** What pamc_list_agents does with any directories: the agents found, sorted and without repetition, are
    returned only if there are none or one.  With two the program is stopped by its own consistency check
    (or, with assertions compiled out, gets an array without an end), and with three or more the function
    writes past the array. *)
Theorem list_agents_outcome : forall ndebug names, exists l,
  StronglySorted before l /\ (forall x, In x l <-> In x names /\ valid_agent_id x = true) /\
  list_agents ndebug true names =
    match l with
    | [] | [_] => Ok (Goes (Some l))
    | [_; _] => if ndebug then UB else Ok Exits
    | _ => UB
    end.
Proof.
  intros nd names. unfold list_agents.
  assert (A := add_all_spec names Leaf 0 (SSorted_nil _) eq_refl).
  destruct (add_all Leaf 0 names) as [t total]. destruct A as (A & B & C).
  exists (in_order t). split; [exact A|]. split.
  { intro x. rewrite B. cbn [in_order In]. intuition. }
  cbn [negb].
  assert (T : total = match in_order t with [] => 0 | _ => 1 end).
  { rewrite C. destruct t as [|l n y r]; [reflexivity|]. cbn [in_order]. destruct (in_order l); reflexivity. }
  rewrite T. destruct (in_order t) as [|x [|y [|z l]]]; try reflexivity.
  cbn [length]. destruct (Z.of_nat (S (S (S (length l)))) >? 1 + 1) eqn:E; [reflexivity|].
  rewrite Z.gtb_ltb, Z.ltb_ge in E. lia.
Qed.

(** So the list of the available agents cannot be had when there are two. *)
Theorem agents_can_be_listed_refuted :
  exists names, NoDup names /\ Forall (fun n => valid_agent_id n = true) names /\
    list_agents false true names = Ok Exits.
Proof.
  exists [lit "ssh"; lit "krb"]. split.
  - constructor; [intros [H|[]]; discriminate|constructor; [intros []|constructor]].
  - split; [repeat constructor|reflexivity].
Qed.
Example list_one_ex : list_agents false true [lit "."; lit ".."; lit "ssh"; lit "ssh"] = Ok (Goes (Some [lit "ssh"])) /\
  list_agents false true [lit "b"; lit "a"; lit "c"] = UB.
Proof. split; reflexivity. Qed.

(** ** What an agent inherits *)
(** All descriptors from 3 up to the highest the library has seen are closed, *)
Theorem low_descriptors_closed : forall out fd, 3 <= fd -> fd <= 10 \/ (10 < out /\ fd <= 2 * out) ->
  child_closes 10 out fd = true.
Proof.
  intros out fd H1 H2. unfold child_closes. destruct (10 <? out) eqn:E; apply andb_true_iff; split; apply Z.leb_le;
    try apply Z.ltb_lt in E; try apply Z.ltb_ge in E; lia.
Qed.
(** but others of the client stay open in the agent. *)
Theorem no_descriptor_leaks_refuted : exists fd, 3 <= fd /\ child_closes 10 6 fd = false.
Proof. exists 11. split; [lia|reflexivity]. Qed.
Example low_descriptors_closed_ex : child_closes 10 12 24 = true /\ child_closes 10 12 1 = false.
Proof. split; reflexivity. Qed.

Print Assumptions prompt_reads_back.
Print Assumptions fill_places.
Print Assumptions fill_past_end_stops.
Print Assumptions extract_gives.
Print Assumptions agent_id_checked_alternately.
Print Assumptions accepted_names_are_legal_refuted.
Print Assumptions legal_names_are_accepted_refuted.
Print Assumptions plain_names_accepted.
Print Assumptions search_path_is_parts.
Print Assumptions agents_come_from_path.
Print Assumptions disabled_agent_never_runs.
Print Assumptions disable_of_running_refused.
Print Assumptions load_runs_first_found.
Print Assumptions converse_exchanges.
Print Assumptions select_means_named.
Print Assumptions converse_outcomes.
Print Assumptions any_answer_is_safe_refuted.
Print Assumptions list_agents_outcome.
Print Assumptions agents_can_be_listed_refuted.
Print Assumptions low_descriptors_closed.
Print Assumptions no_descriptor_leaks_refuted.
