(** C98: the numbers among the arguments of the helper of pam_mkhomedir. *)
From Coq Require Import String Ascii List Arith ZArith Bool Lia.
From Verif Require Import Base Num_Model Str_Model Str_Facts Opt_Model Opt_Facts Mkhome_Model Mkhome_Props Succeedif_Props.
Import ListNotations.
Local Open Scope Z_scope.

(** A numeral of C: white space, a sign, and a natural number in base 10, 8 (leading 0) or 16 (leading 0x). *)
Definition spelled (s : cstr) (neg : bool) (n : Z) : Prop := exists sp sg body, s = (sp ++ sg ++ body)%list /\ forallb isspace sp = true /\
  (neg = true /\ sg = lit "-" \/ neg = false /\ (sg = [] \/ sg = lit "+")) /\ natural body n.
(** A mode or mask is the whole argument and not out of range; with a minus sign it counts down from 2^64. The empty argument counts as 0. *)
Theorem mkhome_numbers : forall s v, Mkhome_Model.number s = Some v <-> (s = [] /\ v = 0) \/ exists neg n, spelled s neg n /\ n < 2 ^ 64 /\ v = (if neg then - n else n) mod 2 ^ 64.
Proof.
  assert (NN : forall b n, natural b n -> 0 <= n).
  { assert (F : forall b ds, 0 < b -> forall a, 0 <= a -> 0 <= fold_left (fun a c => a * b + hex_val c) ds a).
    { intros b ds B. induction ds as [|c ds IH]; intros a A; [exact A|]. cbn [fold_left]. apply IH. assert (0 <= hex_val c) by (clear; destruct c as [[|] [|] [|] [|] [|] [|] [|] [|]]; vm_compute; discriminate). nia. }
    intros b n H. destruct H as [ds v (_ & _ & ->) _|ds v (_ & _ & ->) _|x ds v _ (_ & _ & ->)]; apply F; lia. }
  assert (PART : forall s, strtoul0 s = let '(neg, s1) := sign (skip_spaces s) in let '(v, n, r) := nat_part s1 in
    if Nat.eqb n 0 then (0, false, s) else if ULONG_MAX <? v then (ULONG_MAX, true, r) else (if neg then (- v) mod (ULONG_MAX + 1) else v, false, r)) by (intro s; reflexivity).
  assert (VAL : forall (neg : bool) n, 0 <= n -> (ULONG_MAX <? n) = false -> n < 2 ^ 64 /\ (if neg then (- n) mod (ULONG_MAX + 1) else n) = (if neg then - n else n) mod 2 ^ 64).
  { intros neg n P L. apply Z.ltb_ge in L. change (2 ^ 64) with (ULONG_MAX + 1). split; [lia|]. destruct neg; [reflexivity|]. rewrite Z.mod_small by lia. reflexivity. }
  intros s v. unfold Mkhome_Model.number. rewrite PART. split.
  - destruct (skip_spaces_split s) as (sp & Es & A). destruct (sign (skip_spaces s)) as [neg s1] eqn:SG. destruct (nat_part s1) as [[w n] r] eqn:NP. intro H.
    destruct n as [|n]; cbn [Nat.eqb] in H.
    + destruct s as [|c s]; [injection H as <-; left; auto|discriminate].
    + right. destruct (ULONG_MAX <? w) eqn:L; [destruct r; discriminate|]. destruct r as [|c r]; [|discriminate]. assert (NA : natural s1 w) by (apply (nat_part_spec s1 w (S n)); auto).
      destruct (VAL neg w (NN _ _ NA) L) as (V1 & V2). rewrite V2 in H. injection H as <-. exists neg, w. split; [|auto]. unfold sign in SG. destruct (skip_spaces s) as [|c t] eqn:K.
      * injection SG as <- <-. exists sp, [], []. split; [exact Es|]. split; [exact A|]. split; [right; auto|exact NA].
      * destruct (Ascii.eqb_spec c "-"%char) as [->|_]; [injection SG as <- <-; exists sp, (lit "-"), t; split; [exact Es|]; split; [exact A|]; split; [left; auto|exact NA]|].
        destruct (Ascii.eqb_spec c "+"%char) as [->|_]; [injection SG as <- <-; exists sp, (lit "+"), t; split; [exact Es|]; split; [exact A|]; split; [right; auto|exact NA]|].
        injection SG as <- <-. exists sp, [], (c :: t). split; [exact Es|]. split; [exact A|]. split; [right; auto|exact NA].
  - intros [(-> & ->)|(neg & n & (sp & sg & body & -> & A & SG & NA) & L & ->)]; [reflexivity|]. destruct (natural_part body n NA) as (k & NP).
    assert (SS : sign (skip_spaces (sp ++ sg ++ body)) = (neg, body)).
    { destruct SG as [(-> & ->)|(-> & [->| ->])].
      - cbn [lit list_ascii_of_string app]. rewrite skip_spaces_app by (assumption || reflexivity). reflexivity.
      - destruct (natural_head body n NA) as (c & t & -> & C1 & C2 & C3). cbn [app]. rewrite skip_spaces_app by assumption. unfold sign. destruct (Ascii.eqb_spec c "-"%char); [contradiction|]. destruct (Ascii.eqb_spec c "+"%char); [contradiction|reflexivity].
      - cbn [lit list_ascii_of_string app]. rewrite skip_spaces_app by (assumption || reflexivity). reflexivity. }
    rewrite SS, NP. cbn [Nat.eqb]. assert (LT : (ULONG_MAX <? n) = false) by (apply Z.ltb_ge; change (2 ^ 64) with (ULONG_MAX + 1) in L; lia). rewrite LT. destruct (VAL neg n (NN _ _ NA) LT) as (_ & ->). reflexivity.
Qed.
Example mkhome_numbers_example : Mkhome_Model.number (lit "0x1F") = Some 31 /\ Mkhome_Model.number (lit " +077") = Some 63 /\ Mkhome_Model.number (lit "077x") = None /\ Mkhome_Model.number (lit "18446744073709551616") = None /\ Mkhome_Model.number (lit " ") = None.
Proof. repeat split; reflexivity. Qed.
(** A mask that is no number is not always refused: with umask= and nothing after it everybody may write to the new home directory and the files in it. *)
Theorem mkhome_empty_mask_refuted : exists W d t n, helper W [lit "ann"; []; lit "/etc/skel"; homemode []] = Ok d /\ d_rc d = PAM_SUCCESS /\ d_below d = Some (lit "/home", [lit "ann"], t) /\
  s_files t [lit "ann"] = Some (mkNode KDir 511 1000 100) /\ s_files t [lit "ann"; lit ".bashrc"] = Some n /\ Z.testbit (n_mode n) 1 = true.
Proof.
  destruct (helper (world1 never gone empty) [lit "ann"; []; lit "/etc/skel"; homemode []]) as [d| |] eqn:H; [|vm_compute in H; discriminate|vm_compute in H; discriminate].
  exists (world1 never gone empty), d. vm_compute in H. injection H as <-. do 2 eexists. split; [vm_compute; reflexivity|]. split; [reflexivity|]. split; [reflexivity|]. repeat split; vm_compute; reflexivity.
Qed.
Print Assumptions mkhome_numbers.
Print Assumptions mkhome_empty_mask_refuted.
