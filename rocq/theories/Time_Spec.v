(** What the rules of time.conf(5) and group.conf(5) mean, independent of Time_Model. *)
From Coq Require Import String Ascii List Arith ZArith Bool.
From Verif Require Import Base.
Import ListNotations.
Local Open Scope Z_scope.

(** ** Logic lists *)
(** A name is a longest run of these characters. *)
Definition in_name (c : ascii) : bool :=
  isalnum c || existsb (Ascii.eqb c) ["*"%char; "_"%char; "-"%char; "."%char; "/"%char; ":"%char].
Definition an_operator (c : ascii) : bool := existsb (Ascii.eqb c) ["&"%char; "|"%char; "!"%char].
Inductive token := TName (n : cstr) | TOper (c : ascii).
(** Is the first character part of a name? *)
Definition begins (p : ascii -> bool) (s : cstr) : bool := match s with c :: _ => p c | [] => false end.
(** Everything else separates. *)
Fixpoint tokens (s : cstr) : list token :=
  match s with
  | [] => []
  | c :: r => if an_operator c then TOper c :: tokens r
              else if in_name c then
                match tokens r with
                | TName n :: ts => if begins in_name r then TName (c :: n) :: ts else TName [c] :: TName n :: ts
                | ts => TName [c] :: ts
                end
              else tokens r
  end.
(** A list: terms joined by & or |, a term is a name after any number of '!'. *)
Record term := mkTerm { t_nots : nat; t_name : cstr }.
Record logic := mkLogic { l_first : term; l_more : list (bool * term) }. (* true: & *)
Definition term_tokens (t : term) : list token := (repeat (TOper "!"%char) (t_nots t) ++ [TName (t_name t)])%list.
Definition logic_tokens (l : logic) : list token :=
  (term_tokens (l_first l) ++ flat_map (fun '(a, t) => TOper (if (a : bool) then "&"%char else "|"%char) :: term_tokens t) (l_more l))%list.
(** Its value, left to right, without precedence. *)
Definition term_value (m : cstr -> bool) (t : term) : bool := if Nat.odd (t_nots t) then negb (m (t_name t)) else m (t_name t).
Definition logic_value (m : cstr -> bool) (l : logic) : bool :=
  fold_left (fun v '(a, t) => if (a : bool) then v && term_value m t else v || term_value m t) (l_more l) (term_value m (l_first l)).
Definition logic_names (l : logic) : list cstr := t_name (l_first l) :: map (fun e => t_name (snd e)) (l_more l).

(** ** Names with one wildcard *)
Fixpoint split_star (p : cstr) : option (cstr * cstr) :=
  match p with
  | [] => None
  | c :: r => if Ascii.eqb c "*"%char then Some ([], r) else match split_star r with Some (a, b) => Some (c :: a, b) | None => None end
  end.
Definition is_suffix (p s : cstr) : bool := is_prefix (rev p) (rev s).
(** Without a wildcard: the same name; with one: the name begins and ends like the pattern. *)
Definition fits (name pattern : cstr) : bool :=
  match split_star pattern with
  | None => streq name pattern
  | Some (a, b) => is_prefix a name && is_suffix b name
  end.
(** The case in which the comparison is defined: what follows the wildcard is not longer than the name. *)
Definition comparable (name pattern : cstr) : Prop :=
  match split_star pattern with None => True | Some (a, b) => is_prefix a name = true -> (length b <= length name)%nat end.

(** ** Day and time ranges *)
Definition day_entry (s : cstr) : option (list nat) :=
  match find (fun e => streq (lit (fst e)) s)
    [("su"%string, [0]); ("mo"%string, [1]); ("tu"%string, [2]); ("we"%string, [3]); ("th"%string, [4]); ("fr"%string, [5]); ("sa"%string, [6]);
     ("wk"%string, [1;2;3;4;5]); ("wd"%string, [0;6]); ("al"%string, [0;1;2;3;4;5;6])]%nat
  with Some e => Some (snd e) | None => None end.
(** Two-letter entries, then HHMM-HHMM. *)
Record range := mkRange { r_days : list (list nat); r_from : Z; r_to : Z }.
Definition number (l : list ascii) : Z := fold_left (fun v c => v * 10 + digit_val c) l 0.
Fixpoint parse_range (s : cstr) : option range :=
  match s with
  | a :: b :: r =>
    if isalpha a then
      match day_entry [tolower a; tolower b], parse_range r with
      | Some d, Some g => Some (mkRange (d :: r_days g) (r_from g) (r_to g))
      | _, _ => None
      end
    else match s with
         | [c1; c2; c3; c4; h; c5; c6; c7; c8] =>
           if forallb isdigit [c1; c2; c3; c4; c5; c6; c7; c8] && Ascii.eqb h "-"%char
           then Some (mkRange [] (number [c1; c2; c3; c4]) (number [c5; c6; c7; c8])) else None
         | _ => None
         end
  | _ => None
  end.
(** A day is marked if it is in an odd number of entries. *)
Definition marked (ds : list (list nat)) (d : nat) : bool :=
  Nat.odd (length (filter (fun e => existsb (Nat.eqb d) e) ds)).
(** Day [d] (0 is Sunday) at hour * 100 + minute = [hm]: within one day from the first time to before the second; otherwise from
    the first time on, and on the next day up to and including the second. *)
Definition in_range (d : nat) (hm : Z) (r : range) : bool :=
  if r_from r <? r_to r then marked (r_days r) d && (r_from r <=? hm) && (hm <? r_to r)
  else marked (r_days r) d && (r_from r <=? hm) || marked (r_days r) ((d + 6) mod 7) && (hm <=? r_to r).
Definition in_time (d : nat) (hm : Z) (s : cstr) : bool := match parse_range s with Some r => in_range d hm r | None => false end.

(** ** Files of rules *)
(** A field is written as characters and continued lines (backslash, newline). *)
Inductive piece := Ch (c : ascii) | Continued.
Definition piece_text (p : piece) : list ascii := match p with Ch c => [c] | Continued => [c_bslash; c_nl] end.
Definition raw := list piece.
Definition raw_text (r : raw) : list ascii := flat_map piece_text r.
Definition chars (r : raw) : cstr := flat_map (fun p => match p with Ch c => [c] | Continued => [] end) r.
(** Characters that may stand in a field. *)
Definition plain (c : ascii) : bool := negb (existsb (Ascii.eqb c) [NUL; c_nl; c_bslash; c_hash; ";"%char]).
Definition blank (c : ascii) : bool := Ascii.eqb c c_space || Ascii.eqb c c_tab.
(** With its separator a field has at most 1000 bytes. *)
Definition raw_ok (r : raw) : Prop := forallb plain (chars r) = true /\ (length (raw_text r) < 1000)%nat.
(** The end of a line: an optional comment and the newline. *)
Definition comment_ok (c : option cstr) : Prop := match c with None => True | Some t => ~ In NUL t /\ ~ In c_nl t end.
Definition end_text (c : option cstr) : list ascii := match c with None => [c_nl] | Some t => (c_hash :: t ++ [c_nl])%list end.

(** A line: nothing, or the fields of a rule (all but the last followed by ';'). *)
Inductive line := Empty (blanks : raw) (c : option cstr) | Rule (fields : list raw) (last : raw) (c : option cstr).
Definition line_text (l : line) : list ascii :=
  match l with
  | Empty b c => (raw_text b ++ end_text c)%list
  | Rule fs f c => (flat_map (fun f => raw_text f ++ [";"%char]) fs ++ raw_text f ++ end_text c)%list
  end.
Definition file_text (ls : list line) : list ascii := flat_map line_text ls.
(** [n] fields in all; the first is not empty. *)
Definition line_ok (n : nat) (l : line) : Prop :=
  match l with
  | Empty b c => raw_ok b /\ forallb blank (chars b) = true /\ comment_ok c
  | Rule fs f c => S (length fs) = n /\ Forall raw_ok fs /\ raw_ok f /\ comment_ok c /\
                   match fs with g :: _ => existsb (fun x => negb (blank x)) (chars g) = true | [] => False end
  end.

(** What a field says. *)
Definition says (r : raw) (l : logic) : Prop := tokens (chars r) = logic_tokens l.
(** The users: a list, '@' with a netgroup, '%' with a group. *)
Inductive users := UList (l : logic) | UNet (g : cstr) | UGroup (g : cstr).
Definition users_say (r : raw) (u : users) : Prop :=
  match u with
  | UList l => says r l /\ forall a c b, chars r = (a ++ c :: b)%list -> forallb blank a = true -> blank c = false -> c <> "@"%char /\ c <> "%"%char
  | UNet g => exists a b, chars r = (a ++ "@"%char :: g ++ b)%list /\ forallb blank (a ++ b) = true /\ existsb (fun c => blank c || Ascii.eqb c "!"%char) g = false
  | UGroup g => exists a b, chars r = (a ++ "%"%char :: g ++ b)%list /\ forallb blank (a ++ b) = true /\ existsb (fun c => blank c || Ascii.eqb c "!"%char) g = false
  end.

(** Who asks, and when. *)
Record asker := mkAsker { a_service : cstr; a_tty : cstr; a_user : cstr; a_net : cstr -> bool; a_grp : cstr -> bool; a_day : nat; a_hm : Z }.
Definition name_ok (a : cstr) (l : logic) : Prop := Forall (comparable a) (logic_names l).
Definition users_match (q : asker) (u : users) : bool :=
  match u with UList l => logic_value (fits (a_user q)) l | UNet g => a_net q g | UGroup g => a_grp q g end.
Definition users_ok (q : asker) (u : users) : Prop := match u with UList l => name_ok (a_user q) l | _ => True end.
(** The meaning of the four fields services, ttys, users, times. *)
Record meaning := mkMeaning { m_services : logic; m_ttys : logic; m_users : users; m_times : logic }.
Definition applies (q : asker) (m : meaning) : bool :=
  logic_value (fits (a_service q)) (m_services m) && logic_value (fits (a_tty q)) (m_ttys m) && users_match q (m_users m).
Definition times_match (q : asker) (m : meaning) : bool := logic_value (in_time (a_day q) (a_hm q)) (m_times m).
Definition meaning_ok (q : asker) (m : meaning) : Prop :=
  name_ok (a_service q) (m_services m) /\ name_ok (a_tty q) (m_ttys m) /\ users_ok q (m_users m) /\
  Forall (fun n => parse_range n <> None) (logic_names (m_times m)).
Definition asker_ok (q : asker) : Prop :=
  ~ In "*"%char (a_service q) /\ ~ In "*"%char (a_tty q) /\ ~ In "*"%char (a_user q) /\ (a_day q < 7)%nat.
(** The lines of a time.conf and the meanings of its rules, in order. *)
Inductive time_file : list line -> list meaning -> Prop :=
| tf_nil : time_file [] []
| tf_empty b c ls ms : time_file ls ms -> time_file (Empty b c :: ls) ms
| tf_rule s t u f c m ls ms : says s (m_services m) -> says t (m_ttys m) -> users_say u (m_users m) -> says f (m_times m) ->
    (forall g, m_users m <> UGroup g) -> time_file ls ms -> time_file (Rule [s; t; u] f c :: ls) (m :: ms).

(** group.conf: a fifth field of group names, separated by blanks, commas and the like. *)
Definition in_group_name (c : ascii) : bool := isalnum c || existsb (Ascii.eqb c) ["_"%char; "*"%char; "-"%char].
Fixpoint runs (p : ascii -> bool) (s : cstr) : list cstr :=
  match s with
  | [] => []
  | c :: r => if p c then match runs p r with
                          | n :: ns => if begins p r then (c :: n) :: ns else [c] :: n :: ns
                          | [] => [[c]]
                          end
              else runs p r
  end.
Inductive group_file : list line -> list (meaning * list cstr) -> Prop :=
| gf_nil : group_file [] []
| gf_empty b c ls ms : group_file ls ms -> group_file (Empty b c :: ls) ms
| gf_rule s t u f g c m ls ms : says s (m_services m) -> says t (m_ttys m) -> users_say u (m_users m) -> says f (m_times m) ->
    existsb an_operator (chars g) = false -> group_file ls ms ->
    group_file (Rule [s; t; u; f] g c :: ls) ((m, runs in_group_name (chars g)) :: ms).
(** The groups given: those of the rules that match, in order, as far as they exist. *)
Definition known (getgr : cstr -> option Z) (ns : list cstr) : list Z :=
  flat_map (fun n => match getgr n with Some g => [g] | None => [] end) ns.
Definition granted (q : asker) (getgr : cstr -> option Z) (ms : list (meaning * list cstr)) : list Z :=
  flat_map (fun '(m, ns) => if applies q m && times_match q m then known getgr ns else []) ms.
