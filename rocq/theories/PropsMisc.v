(** * C62: which books are added to a citation *)
From Coq Require Import Arith NArith Bool String Lia List.
From Verif Require Import PyStr ListFacts Elements Record Regex RegexParse Patterns DocText Tag Transform Kbs Post Engine Demo SplitProofs PostProofs PropsEngine
  BookProofs KbFit BookMisc.
Import ListNotations.
Local Open Scope string_scope.
Local Open Scope list_scope.
Local Notation length := List.length.

(** ** C62 *)
(** [book_searched] says what becomes of each citation: nothing when it has a book, journal, DOI, ISBN or record; nothing when no
    title of the table whose row has the year of the citation is in a misc text up to case and punctuation; otherwise the first
    such element, and for it the first such title of the table, give one BOOK element at the end, and that misc text loses the
    title ([without_title]) and then the year ([remove_year], C46). *)
Theorem C62_books : forall books st, good_table books -> Forall (closed (fst st)) (snd st) -> NoDup (List.concat (snd st)) ->
  (forall a, In a (List.concat (snd st)) -> one_to_one (e_misc (deref (fst st) a))) ->
  exists st', look_for_undetected_books books st = Ok st' /\ Forall2 (book_searched books) (values st) (values st')
  /\ (forall a, a < length (fst st) -> ~ In a (List.concat (snd st)) -> deref (fst st') a = deref (fst st) a).
Proof. exact books_looked. Qed.
Print Assumptions C62_books.
(** A table read from full rows (authors, a title with a letter or digit, a year) is such a table. *)
Theorem C62_table : forall rows kb, build_books_kb rows = Ok kb -> Forall full_row rows -> good_table kb.
Proof. exact built_good. Qed.
Print Assumptions C62_table.

Definition row_a := [py "J. Doe"; py "A Book of Fields"; py "1990;"].
Definition row_b := [py "K. Roe"; py "Fields"; py "1995"].
Definition two_books : books_kb := [(py "FIELDS", row_b); (py "A BOOK OF FIELDS", row_a)].
Definition misc_el (s : string) := mkel MISC (py s) [].
Definition year_at (s : string) := set_str Kyear (py s) (mkel YEAR [] []).
Definition two_state : state :=
  ([misc_el "in: "; misc_el "J. Doe, A Book, of: Fields, (1990) p. 5"; year_at "1990"; misc_el "K. Roe, Fields, 1995"; mkel DOI [] [(Kdoi_string, VS (py "10.1/x"))]; year_at "1995"],
   [[0; 1; 2]; [3; 4; 5]]).
Example C62_case : good_table two_books /\ Forall (closed (fst two_state)) (snd two_state) /\ NoDup (List.concat (snd two_state))
  /\ (forall a, In a (List.concat (snd two_state)) -> one_to_one (e_misc (deref (fst two_state) a)))
  /\ match look_for_undetected_books two_books two_state with
     | Ok st => map (map (fun e => (e_type e, e_misc e))) (values st)
         = [[(MISC, py "in: "); (MISC, py "J. Doe,  p. 5"); (YEAR, []); (BOOK, [])]; [(MISC, py "K. Roe, Fields, 1995"); (DOI, []); (YEAR, [])]]
     | Err _ => False
     end.
Proof.
  split; [|split; [|split; [|split]]].
  - intros t x I. cbn in I. destruct I as [E|[E|[]]]; injection E as <- <-; (split; [vm_compute; discriminate|]); eexists; (split; [vm_compute; reflexivity|cbn; lia]).
  - repeat constructor; cbn; lia.
  - repeat constructor; cbn; intuition discriminate.
  - intros a I. cbn in I. repeat (destruct I as [<-|I]; [intros c J; vm_compute in J; repeat (destruct J as [<-|J]; [vm_compute; reflexivity|]); contradiction|]). contradiction.
  - vm_compute. reflexivity.
Qed.
