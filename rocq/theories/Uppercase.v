(** The class of upper case letters of refextract/authors/regexs.py 58-71. *)
From Coq Require Import List Arith NArith Bool.
From Verif Require Import PyStr.
Import ListNotations.
Open Scope nat_scope.

(** get_uppercase_re, 61-71: the upper case forms of the word characters below 0x10000
    except 0-9 and "_".  As a class of ranges. *)
Definition word_letter (c : N) : bool := is_word c && negb (is_ascii_digit c) && negb (N.eqb c 95).
Fixpoint upto (k : nat) (c : N) : list N := match k with O => [] | S k' => c :: upto k' (c + 1)%N end.
Definition uppercase_letters : list N := flat_map (fun c => if word_letter c then upper [c] else []) (upto 65535 1%N).
(** sorted and joined into ranges; a range is given by two characters around "-" *)
Definition insert_range (c : N) (l : list (N * N)) : list (N * N) :=
  match l with
  | [] => [(c, c)]
  | (a, b) :: t =>
    if (a <=? c)%N && (c <=? b)%N then l
    else if N.eqb c (b + 1) then (a, c) :: t
    else (c, c) :: l
  end.
(** most letters come in ascending order; the class is a set, so overlapping ranges are
    harmless *)
Definition uppercase_ranges : list (N * N) := fold_left (fun l c => insert_range c l) uppercase_letters [].
Definition uppercase_re : str :=
  Eval vm_compute in
  ([91%N] ++ flat_map (fun e => [fst e; 45%N; snd e]) uppercase_ranges ++ [93%N])%list.
