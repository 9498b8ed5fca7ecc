(** What a numeration is (C57): the volume, the year and the page of a journal reference and the eleven orders in which they may
    stand, as a grammar of texts. Nothing here refers to the patterns of the code or to the matcher.

    A part of the grammar says of a text [w] whether it can be read as that part, given the text before it, the text after it and
    the fields found in it. *)
From Coq Require Import List Arith NArith Bool String.
From Verif Require Import PyStr.
Import ListNotations.
Local Open Scope nat_scope.

Inductive field := Fvolume | Fnumber | Fnumber2 | Fnumber3 | Fsub | Fyear | Fpages | Fjinst | Fpage | Fpage_end | Fseries | Ftitle | Fafter | Fmark.
Definition field_eq_dec (f g : field) : {f = g} + {f <> g}. Proof. decide equality. Defined.
Definition fields := list (field * str).
Fixpoint field_of (f : field) (fs : fields) : option str :=
  match fs with [] => None | (g, t) :: fs' => if field_eq_dec f g then Some t else field_of f fs' end.

(** ** Combining parts *)
Definition part := str -> str -> str -> fields -> Prop.
Definition seq (p q : part) : part := fun a w b fs => exists u v f1 f2, w = u ++ v /\ fs = f2 ++ f1 /\ p a u (v ++ b) f1 /\ q (a ++ u) v b f2.
Definition either (p q : part) : part := fun a w b fs => p a w b fs \/ q a w b fs.
Definition maybe (p : part) : part := fun a w b fs => (w = [] /\ fs = []) \/ p a w b fs.
Definition named (f : field) (p : part) : part := fun a w b fs => exists fs', fs = (f, w) :: fs' /\ p a w b fs'.
(** a text without fields *)
Definition text (P : str -> Prop) : part := fun _ w _ fs => P w /\ fs = [].
(** a place between the text before and the text after *)
Definition place (P : str -> str -> Prop) : part := fun a w b fs => w = [] /\ fs = [] /\ P a b.
Infix ";;" := seq (at level 61, right associativity).
Infix "or" := either (at level 62, right associativity).

(** ** Characters *)
Definition one (p : ch -> bool) : part := text (fun w => exists c, w = [c] /\ p c = true).
Definition some_of (l : str) (c : ch) : bool := existsb (N.eqb c) l.
Definition any_of (l : string) : part := one (some_of (py l)).
(** at least [lo] and at most [hi] characters *)
Definition many (lo : nat) (hi : option nat) (p : ch -> bool) : part :=
  text (fun w => forallb p w = true /\ lo <= List.length w /\ match hi with Some k => List.length w <= k | None => True end).
Definition is_letter (c : ch) : bool := in_range 65 90 c || in_range 97 122 c.
Definition letter : part := one is_letter.
Definition digit : part := one is_digit.
Definition blanks : part := many 0 None is_space.
Definition last_is (p : ch -> bool) (a : str) : Prop := exists u c, a = u ++ [c] /\ p c = true.
Definition first_is (p : ch -> bool) (b : str) : Prop := exists c t, b = c :: t /\ p c = true.
Definition before (p : ch -> bool) : part := place (fun _ b => first_is p b).
Definition after (p : ch -> bool) : part := place (fun a _ => last_is p a).
Definition not_before (p : ch -> bool) : part := place (fun _ b => ~ first_is p b).
Definition not_after (p : ch -> bool) : part := place (fun a _ => ~ last_is p a).
(** exactly one of the neighbouring characters is a letter, a digit or an underscore *)
Definition word_edge : part := place (fun a b => (last_is is_word a /\ ~ first_is is_word b) \/ (~ last_is is_word a /\ first_is is_word b)).

(** ** Separators *)
Definition sep_char (c : ch) : bool := N.eqb c 44 || is_space c || N.eqb c 58 || N.eqb c 45.
(** white space with one comma, colon, dash or white space in it *)
Definition separator : part := blanks ;; one sep_char ;; blanks.
Definition start : part := blanks ;; maybe (one sep_char) ;; blanks.
Definition to_parenthesis : part := separator or before (some_of (py "(")).
Definition from_parenthesis : part := separator or after (some_of (py ")")).

(** ** The volume *)
Definition vol_word : part :=
  (any_of "Vv" ;; maybe (any_of "o") ;; maybe (any_of "l") ;; maybe (any_of ".")) or (any_of "Nn" ;; any_of "oO°" ;; maybe (any_of ".")).
(** a number or a Roman number that is a word *)
Definition vol_number : part := many 1 None is_digit or (not_after is_word ;; many 1 None (some_of (py "XxVvIi")) ;; not_before is_word).
(** 12, A12 or A, 12; 12A; 12-13, A12-A13 *)
Definition vol_text : part :=
  (maybe (letter ;; start) ;; named Fnumber vol_number)
  or (named Fnumber2 vol_number ;; letter)
  or (maybe (letter ;; maybe (one is_space)) ;; named Fnumber3 (many 1 None is_digit) ;; blanks ;; any_of "-" ;; blanks ;; maybe (letter ;; maybe (one is_space)) ;; many 1 None is_digit).
(** (2), (2-3) *)
Definition vol_part : part := blanks ;; any_of "(" ;; many 1 (Some 2) is_digit ;; maybe (any_of "-" ;; digit) ;; any_of ")".
Definition volume : part :=
  word_edge ;; maybe vol_word ;; blanks ;; not_after (fun c => N.eqb c 47 || is_digit c) ;; named Fvolume vol_text ;; maybe vol_part.
(** No. 3 *)
Definition issue : part := maybe (separator ;; named Fsub (any_of "Nn" ;; any_of "oO°" ;; maybe (any_of ".") ;; blanks ;; many 1 (Some 6) is_digit)).
(** [FS3], (PM) as in Nuclear Physics B *)
Definition subtitle : part :=
  any_of "([" ;; blanks ;; ((any_of "Ff" ;; any_of "Ss") or (any_of "Pp" ;; any_of "Mm")) ;; blanks ;; many 0 (Some 4) is_digit ;; blanks ;; any_of ")]".
Definition subtitle_opt : part := maybe (separator ;; subtitle).
Definition series : part := named Fseries (one (in_range 65 72)).

(** ** The year *)
(** one of the words, with its first letter in either case *)
Definition word_in (l : list string) : part :=
  text (fun w => exists v c t, In v l /\ py v = c :: t /\ (w = c :: t \/ w = (c - 32)%N :: t)).
Definition short_months := ["jan"; "feb"; "mar"; "apr"; "may"; "jun"; "jul"; "aug"; "sep"; "oct"; "nov"; "dec"]%string.
Definition months := ["january"; "february"; "march"; "april"; "may"; "june"; "july"; "august"; "september"; "october"; "november"; "december"]%string.
Definition month_of (l : list string) : part := maybe ((word_in l ;; maybe (any_of ".")) ;; one (fun c => N.eqb c 44 || is_space c) ;; blanks).
Definition year_digits : part := text (fun w => exists d e, (w = py "19" ++ [d; e] \/ w = py "20" ++ [d; e]) /\ is_digit d = true /\ is_digit e = true).
Definition year : part :=
  maybe (any_of "(") ;; month_of short_months ;; month_of months ;; not_after is_digit ;; named Fyear (maybe letter ;; year_digits) ;; maybe letter
  ;; not_before is_digit ;; maybe (any_of ")").

(** ** The page *)
Definition page_number : part := maybe (any_of "RL") ;; maybe (one is_word) ;; many 1 None is_digit ;; maybe (any_of "cC").
(** P12345 as in JINST; or p. 12, pp. 12 - 15 *)
Definition page : part :=
  named Fpages (named Fjinst (any_of "pP" ;; many 5 (Some 5) is_digit ;; many 0 None is_digit)
   or (maybe (any_of "pP") ;; maybe (any_of "p") ;; maybe (any_of ".") ;; maybe (one is_space) ;; named Fpage page_number
       ;; maybe (blanks ;; any_of "-" ;; blanks ;; named Fpage_end page_number))).

(** ** The orders, the first that fits is taken *)
Definition orders : list part :=
  [ start ;; volume ;; issue ;; separator ;; page ;; to_parenthesis ;; year;
    start ;; volume ;; issue ;; separator ;; subtitle ;; separator ;; page ;; to_parenthesis ;; year;
    start ;; subtitle ;; separator ;; volume ;; separator ;; page ;; to_parenthesis ;; year;
    start ;; volume ;; issue ;; subtitle_opt ;; to_parenthesis ;; year ;; from_parenthesis ;; page;
    start ;; volume ;; subtitle_opt ;; to_parenthesis ;; year ;; issue ;; separator ;; page;
    start ;; volume ;; to_parenthesis ;; year ;; from_parenthesis ;; page;
    start ;; subtitle ;; separator ;; volume ;; to_parenthesis ;; year ;; from_parenthesis ;; page;
    start ;; volume ;; subtitle_opt ;; separator ;; series ;; to_parenthesis ;; year ;; from_parenthesis ;; page;
    start ;; volume ;; separator ;; series ;; subtitle_opt ;; separator ;; page ;; separator ;; year;
    start ;; volume ;; subtitle_opt ;; separator ;; series ;; separator ;; page ;; separator ;; year;
    start ;; year ;; from_parenthesis ;; volume ;; separator ;; page ].
(** around a title that is tagged already *)
Definition tagged_title : part :=
  named Ftitle (text (fun w => exists t, w = py "<cds.JOURNAL>" ++ t ++ py "</cds.JOURNAL>" /\ forallb (fun c => negb (N.eqb c 60)) t = true)).
Definition dot_separator : part := blanks ;; one (fun c => N.eqb c 46 || N.eqb c 44 || is_space c || N.eqb c 58) ;; blanks.
Definition title_orders : list part :=
  [ year ;; separator ;; tagged_title ;; named Fafter (separator ;; volume ;; separator ;; page);
    year ;; separator ;; tagged_title ;; named Fafter (separator ;; volume ;; separator ;; series ;; separator ;; page);
    tagged_title ;; named Fafter (separator ;; volume ;; separator ;; page);
    tagged_title ;; named Fafter (separator ;; year ;; dot_separator ;; volume ;; separator ;; page) ].

(** ** The series in the text of a volume: the letter before its number, or the capital behind it *)
Definition gap (w : str) : Prop := start [] w [] [].
Definition series_before (v : str) (c : ch) : Prop := exists u d t, v = [c] ++ u ++ [d] ++ t /\ is_letter c = true /\ gap u /\ is_digit d = true.
Definition series_behind (v : str) (c : ch) : Prop := exists n u t, v = n ++ u ++ [c] ++ t /\ n <> [] /\ forallb is_digit n = true /\ gap u /\ in_range 65 90 c = true.
Definition series_in (v : str) (s : option str) : Prop :=
  (exists c, series_before v c /\ s = Some (upper [c]))
  \/ ((forall c, ~ series_before v c) /\ exists c, series_behind v c /\ s = Some [c])
  \/ ((forall c, ~ series_before v c) /\ (forall c, ~ series_behind v c) /\ s = None).

(** ** The end of a numeration *)
(** the place is not inside a number *)
Definition no_cut (a b : str) : Prop := ~ (last_is is_digit a /\ first_is is_digit b).
(** what follows can be read as the end of a range of pages *)
Definition range_end : part := (blanks ;; any_of "-" ;; blanks) ;; page_number.
Definition range_follows (a b : str) : Prop := exists u v, b = u ++ v /\ range_end a u v [].
(** a parenthesis behind the year belongs to it *)
Definition closed (a b : str) : Prop := first_is (N.eqb 41) b -> last_is (N.eqb 41) a.
(** the orders that end with the page *)
Definition page_last (k : nat) : bool := existsb (Nat.eqb k) [3; 4; 5; 6; 7; 10].
(** the number at the end is not cut, and neither the end of a range of pages nor a parenthesis is left behind *)
Definition whole (k : nat) (w b : str) (fs : fields) : Prop :=
  no_cut w b /\ if page_last k then field_of Fpage_end fs = None -> field_of Fjinst fs = None -> ~ range_follows w b else closed w b.
Definition whole_page (a b : str) (fs : fields) : Prop := no_cut a b /\ (field_of Fpage_end fs = None -> field_of Fjinst fs = None -> ~ range_follows a b).

(** ** Texts with a numeration *)
(** the text begins with a numeration in that order *)
Definition begins (p : part) (s : str) : Prop := exists w b fs, s = w ++ b /\ p [] w b fs.
Definition contains (p : part) (s : str) : Prop := exists a w b fs, s = a ++ w ++ b /\ p a w b fs.
Definition first_of (x y : option str) : option str := match x with Some _ => x | None => y end.
