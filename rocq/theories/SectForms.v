(** The usual markers (C58). *)
From Coq Require Import List Arith NArith Bool String Lia.
From Verif Require Import PyStr ListFacts Regex ParseTagged PosProofs NumGrammar SectGrammar SectProofs SectUse.
Import ListNotations.
Local Open Scope nat_scope.
Local Notation length := List.length.

Lemma lstrip_first c t : is_space c = false -> lstrip (c :: t) = c :: t.
Proof. intros H. unfold lstrip, lstrip_by. cbn [drop_while]. now rewrite H. Qed.
Lemma no_blanks a b : blanks a [] b []. Proof. repeat split; auto. Qed.
Lemma some_digits n a b : forallb is_digit n = true -> n <> [] -> digits a n b [].
Proof. intros D N. split; auto. split; auto. split; auto. destruct n; [congruence|cbn; lia]. Qed.
Lemma the_char x (l : string) a b : some_of (py l) x = true -> any_of l a [x] b []. Proof. intros H. split; eauto. Qed.
Lemma brackets_removed n rest : forallb is_digit n = true -> n <> [] ->
  remove_reference_line_marker (py "[" ++ n ++ py "]" ++ rest) = Ok (py "[" ++ n ++ py "]", lstrip rest).
Proof.
  intros D N. apply marker_exact. right. change (py "[") with [91%N]. change (py "]") with [93%N]. change ([91%N] ++ n ++ [93%N] ++ rest) with (91%N :: n ++ [93%N] ++ rest). rewrite lstrip_first by reflexivity.
  exists 0, rest, [(Fmark, [91%N] ++ n ++ [93%N]); (Fnumber, n)]. split; auto. split; [lia|]. split; [cbn [app]; now rewrite <- app_assoc|]. split; [|split; [discriminate|intros j J; lia]].
  cbn [nth marks map mark_texts]. exists [], ([91%N] ++ n ++ [93%N]), [], [(Fmark, [91%N] ++ n ++ [93%N]); (Fnumber, n)]. split; auto. split; auto. split; [apply no_blanks|]. exists [(Fnumber, n)]. split; auto.
  unfold bracketed. exists [91%N], (n ++ [93%N]), [], [(Fnumber, n)]. split; auto. split; auto. split; [now apply the_char|]. exists [], (n ++ [93%N]), [], [(Fnumber, n)]. split; auto. split; auto. split; [apply no_blanks|].
  exists n, [93%N], [(Fnumber, n)], []. split; auto. split; auto. split; [exists []; split; auto; now apply some_digits|]. exists [], [93%N], [], []. split; auto. split; auto. split; [apply no_blanks|]. now apply the_char.
Qed.
Lemma early_stop j : j < 5 -> stops is_digit (nth j marks nothing).
Proof. intros L. do 5 (try (destruct j as [|j]; [cbv [nth marks map mark_texts]|])); [..|exfalso; lia]. all: unfold bracketed, label; stop. Qed.
Lemma dot_removed n rest : forallb is_digit n = true -> n <> [] -> ~ first_is is_digit rest ->
  remove_reference_line_marker (n ++ py "." ++ rest) = Ok (n ++ py ".", lstrip rest).
Proof.
  intros D N R. apply marker_exact. right. change (py ".") with [46%N]. unfold str, ch in *. assert (lstrip (n ++ [46%N] ++ rest) = n ++ [46%N] ++ rest) as Ls.
  { destruct n as [|c n]; [congruence|]. cbn [app]. apply lstrip_first. cbn [forallb] in D. apply andb_true_iff in D as (D & _). now apply digit_no_space. }
  unfold str, ch in *. rewrite Ls.
  exists 5, rest, [(Fmark, n ++ [46%N]); (Fnumber, n)]. split; auto. split; [lia|]. split; [now rewrite <- app_assoc|]. split; [|split; [discriminate|]].
  - cbn [nth marks map mark_texts]. exists [], (n ++ [46%N]), [], [(Fmark, n ++ [46%N]); (Fnumber, n)]. split; auto. split; auto. split; [apply no_blanks|]. exists [(Fnumber, n)]. split; auto.
    exists n, [46%N], [(Fnumber, n)], []. split; auto. split; auto. split; [exists []; split; auto; now apply some_digits|]. exists [], [46%N], [], []. split; auto. split; auto. split; [apply no_blanks|].
    exists [46%N], [], [], []. split; auto. split; auto. split; [now apply the_char|]. split; auto.
  - intros j J (w & b & fs & E & P). destruct (early_stop j J _ _ _ _ P) as (c & t & E' & F). rewrite <- E in E'. destruct n as [|x n]; [congruence|]. injection E' as -> _. cbn [forallb] in D. apply andb_true_iff in D as (D & _). congruence.
Qed.
