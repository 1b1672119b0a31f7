(** Lines and words of texts, stated relationally.  Mentions no library code. *)
From Coq Require Export String Ascii List Bool ZArith Lia.
Export ListNotations.
Open Scope string_scope.

(** every character satisfies [P] *)
Fixpoint each (P : ascii -> bool) (s : string) : bool :=
  match s with EmptyString => true | String c s => P c && each P s end.
(** [w] is a maximal non-empty piece of [s] between separators *)
Definition token (sep : ascii -> bool) (s w : string) : Prop :=
  w <> "" /\ each (fun c => negb (sep c)) w = true /\
  exists pre post, s = pre ++ w ++ post /\
    (pre = "" \/ exists p c, pre = p ++ String c "" /\ sep c = true) /\
    (post = "" \/ exists c q, post = String c q /\ sep c = true).
(** [l] is a (non-empty) line of the text [s] *)
Definition newline (c : ascii) : bool := Ascii.eqb c "010".
Definition line_of (s l : string) : Prop := token newline s l.
(** [w] is a word of [l]: separated by spaces, tabs, and the other blank characters *)
Definition blank (c : ascii) : bool := existsb (Ascii.eqb c) [" "; "009"; "010"; "011"; "012"; "013"]%char.
Definition word_of (l w : string) : Prop := token blank l w.
