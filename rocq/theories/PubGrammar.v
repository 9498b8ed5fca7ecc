(** Where a line names a publisher (C64). Nothing here refers to the patterns of the code or to the matcher; [case_variants d] are
    the characters that differ from d in case only. *)
From Coq Require Import List Arith NArith Bool String.
From Verif Require Import PyStr Regex.
Import ListNotations.
Local Open Scope nat_scope.
Local Notation length := List.length.

(** the text does not go on with a letter, digit or underscore *)
Definition no_word (s : str) : Prop := match s with c :: _ => is_word c = false | [] => True end.
(** at place i of the line there is the name, in capitals, small letters or mixed, and it is not part of a longer word *)
Definition named_at (X line : str) (i : nat) : Prop := exists a w b, line = a ++ w ++ b /\ length a = i
  /\ Forall2 (fun c d => In c (case_variants d)) X w /\ no_word (rev a) /\ no_word b.
(** the publisher at this place is the one with the longest name there *)
Definition publisher_at (names : list str) (line : str) (i : nat) (X : str) : Prop :=
  In X names /\ named_at X line i /\ forall Y, In Y names -> named_at Y line i -> length Y <= length X.
