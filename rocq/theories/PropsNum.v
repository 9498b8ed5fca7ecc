(** C57: the numerations of journals. *)
From Coq Require Import List Arith NArith Bool String Lia.
From Verif Require Import PyStr Regex Numeration NumGrammar NumProofs NumFind NumTail NumForms.
Import ListNotations.
Local Open Scope nat_scope.
Local Open Scope string_scope.
Local Open Scope list_scope.

(** ** C57 *)
(** A numeration is reported exactly when the text begins with one in one of the eleven orders of NumGrammar. It is of the
    first of these orders that fits; its fields are those reported, its length is the length reported, and it is whole: the
    number at its end is not cut, and neither the end of a range of pages nor a parenthesis is left behind. *)
Theorem C57_found : forall s, exists r, find_numeration s = Ok r
  /\ match r with Some i => numeration_of s i | None => forall p, In p orders -> ~ begins p s end.
Proof. exact find_numeration_whole. Qed.
Print Assumptions C57_found.
(** The same for the numerations around a title that is tagged: anywhere in the text, the leftmost of the first order. *)
Theorem C57_around_title : forall s, exists r, find_numeration_more s = Ok r
  /\ match r with Some i => title_numeration_of s i | None => forall p, In p title_orders -> ~ contains p s end.
Proof. exact find_numeration_more_whole. Qed.
Print Assumptions C57_around_title.
(** The three usual forms, for all numbers, all years 19xx and 20xx, with or without a series (a letter other than V) and the
    end of a range of pages: the fields are those written. " B12 (2009) 345-350" *)
Theorem C57_year_inside : forall l v y p q b, usual l v y p q -> page_over q b ->
  find_numeration (form1 l v y p q ++ b) = Ok (Some (mknum (Some y) (series_of l) (Some v) (Some p) q (List.length (form1 l v y p q)))).
Proof. exact form1_found. Qed.
Print Assumptions C57_year_inside.
(** " B12, 345-350 (2009)" before any text; the end of the range is not a year itself *)
Theorem C57_year_last : forall l v y p q b, usual l v y p q -> (forall q', q = Some q' -> ~ a_year q') ->
  find_numeration (form2 l v y p q ++ b) = Ok (Some (mknum (Some y) (series_of l) (Some v) (Some p) q (List.length (form2 l v y p q)))).
Proof. exact form2_found. Qed.
Print Assumptions C57_year_last.
(** " (2009) B12, 345-350" *)
Theorem C57_year_first : forall l v y p q b, usual l v y p q -> page_over q b ->
  find_numeration (form3 l v y p q ++ b) = Ok (Some (mknum (Some y) (series_of l) (Some v) (Some p) q (List.length (form3 l v y p q)))).
Proof. exact form3_found. Qed.
Print Assumptions C57_year_first.
(** One expects the series that stands between the volume and the page to be reported, as it is when the year follows it.
    Around a tagged title it is lost. *)
Theorem C57_series_refuted :
  find_numeration_more (py "(1999) <cds.JOURNAL>J.Phys.</cds.JOURNAL> 12 A 345")
    = Ok (Some (mknum (Some (py "1999")) None (Some (py "12")) (Some (py "345")) None 9))
  /\ find_numeration (py " 12 A (1999) 345") = Ok (Some (mknum (Some (py "1999")) (Some (py "A")) (Some (py "12")) (Some (py "345")) None 16)).
Proof. split; vm_compute; reflexivity. Qed.
Print Assumptions C57_series_refuted.

(** *** Cases *)
Definition b12 : option ch := Some 98%N.
Example C57_usual : usual b12 (py "12") (py "2009") (py "345") (Some (py "350")) /\ page_over (Some (py "350")) (py "; C. Author") /\ ~ a_year (py "350").
Proof.
  split; [|split].
  - split; [repeat split; discriminate|]. split; [split; [discriminate|reflexivity]|]. split; [exists 48%N, 57%N; split; [right; reflexivity|split; reflexivity]|]. split; split; solve [discriminate|reflexivity].
  - split; [|discriminate]. intros (c & t & E & C). cbn in E. injection E as <- <-. discriminate.
  - intros (d & e & [E|E] & _); discriminate.
Qed.
Example C57_forms :
  form1 b12 (py "12") (py "2009") (py "345") (Some (py "350")) = py " b12 (2009) 345-350"
  /\ form2 b12 (py "12") (py "2009") (py "345") (Some (py "350")) = py " b12, 345-350 (2009)"
  /\ form3 b12 (py "12") (py "2009") (py "345") (Some (py "350")) = py " (2009) b12, 345-350"
  /\ series_of b12 = Some (py "B").
Proof. repeat split; vm_compute; reflexivity. Qed.
(** without the end of a range, before a text that is none *)
Example C57_page_over : page_over None (py ", arXiv:0901.1234").
Proof.
  split; [intros (c & t & E & C); cbn in E; injection E as <- <-; discriminate|]. intros _ a (u & v & E & w0 & w1 & f1 & f2 & -> & _ & (w2 & w3 & f3 & f4 & -> & _ & H & w4 & w5 & f5 & f6 & -> & _ & D & _) & _).
  apply blanks_all in H as (_ & H). apply any_inv in D as (_ & c & -> & [<-|[]]). destruct w2 as [|x w2]; cbn in E; [discriminate|]. injection E as <- E. discriminate.
Qed.
Example C57_none : find_numeration (py " preprint 12") = Ok None.
Proof. vm_compute; reflexivity. Qed.
Example C57_case :
  find_numeration (py " 12 [FS3] (2009) p. 345 - 350; 13") = Ok (Some (mknum (Some (py "2009")) None (Some (py "12")) (Some (py "345")) (Some (py "350")) 29)).
Proof. vm_compute; reflexivity. Qed.
