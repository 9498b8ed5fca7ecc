(** The markers of references, the titles of the section with the references and those of the sections after it (C58), as grammars
    of texts. Nothing here refers to the patterns of the code or to the matcher. *)
From Coq Require Import List Arith NArith Bool String.
From Verif Require Import PyStr NumGrammar.
Import ListNotations.
Local Open Scope nat_scope.

(** ** Letters in either case *)
(** the ways a letter can be written; the long s, the Kelvin sign and the Turkish letters i count as s, k and i *)
Definition letter_forms (c : ch) : list ch :=
  if in_range 97 122 c then c :: (c - 32)%N :: (if N.eqb c 105 then [304; 305] else if N.eqb c 115 then [383] else if N.eqb c 107 then [8490] else [])%N
  else if N.eqb c 233 then [233; 201]%N else [c].
Definition any_letter (c : ch) : bool := is_letter c || some_of [304; 305; 383; 8490]%N c.
Definition a_letter (c : ch) : part := one (some_of (letter_forms c)).
(** a word, also with its letters spaced out *)
Fixpoint spaced (t : str) : part :=
  match t with
  | [] => text (fun w => w = [])
  | c :: t' => if is_space c then one (N.eqb c) ;; spaced t' else match t' with [] => a_letter c ;; blanks | _ => a_letter c ;; blanks ;; spaced t' end
  end.
Definition spelt (t : str) : part := text (fun w => Forall2 (fun c d => In d (letter_forms c)) t w).
Definition line_start : part := place (fun a _ => a = []).
Definition line_end : part := place (fun _ b => b = [] \/ b = [10%N]).

(** ** The marker of a reference *)
Definition digits : part := many 1 None is_digit.
Definition bracketed (o c : string) : part := any_of o ;; blanks ;; named Fnumber digits ;; blanks ;; any_of c.
Definition label_char (c : ch) : bool := any_letter c || N.eqb c 58 || N.eqb c 45.
Definition label : part :=
  any_of "[" ;; blanks ;; many 1 None label_char ;; maybe (any_of "+") ;; maybe (one is_space) ;; maybe (many 1 (Some 4) is_digit ;; maybe (one label_char)) ;; blanks ;; any_of "]".
Definition mark_texts : list part :=
  [ bracketed "[" "]"; label; bracketed "{" "}"; bracketed "<" ">"; bracketed "(" ")";
    named Fnumber digits ;; blanks ;; any_of "." ;; not_before is_digit;
    named Fnumber digits ;; many 1 None is_space;
    named Fnumber digits ;; blanks ;; any_of "]";
    named Fnumber digits ;; blanks ;; any_of "}";
    named Fnumber digits ;; blanks ;; any_of ")";
    named Fnumber digits ;; blanks ;; any_of ">";
    any_of "[" ;; blanks ;; digits ;; any_of "." ;; digits ;; blanks ;; any_of "]";
    any_of "[" ;; blanks ;; any_of "]";
    any_of "*" ].
(** a marker at the beginning of a line *)
Definition marks : list part := map (fun p => blanks ;; named Fmark p) mark_texts.
(** the white space behind a number without punctuation belongs to it *)
Definition mark_ends (k : nat) (b : str) : Prop := k = 6 -> ~ first_is is_space b.

(** ** The title of the section with the references *)
Definition section_names : list string :=
  ["references"; "références"; "références"; "r´ef´erences"; "bibliography"; "bibliographie"; "literaturverzeichnis"; "citations"; "refs"; "publicationsréfs"; "réfs";
   "reference"; "référence"; "référence"]%string.
Definition title_text (t : string) : part := named Ftitle (spaced (py t) ;; maybe (blanks ;; spaced (py "section"))).
(** the end of the line, a first marker, or a colon *)
Definition title_end : part :=
  line_end or (blanks ;; any_of "[{(<" ;; blanks ;; one (fun c => N.eqb c 49 || any_letter c) ;; blanks ;; any_of "})>]") or (any_of ":" ;; line_end).
Definition title_tail : part := maybe (any_of ".") ;; maybe (any_of ")}]") ;; title_end.
(** the number of the section *)
Definition section_number : part :=
  many 1 (Some 5) is_word ;; maybe (any_of ".-," ;; many 1 (Some 5) is_word) ;; blanks ;; any_of ".-})]" ;; blanks.
Definition section_titles : list part :=
  flat_map (fun t =>
    [ line_start ;; blanks ;; maybe (any_of "[-{(") ;; blanks ;; maybe section_number ;; title_text t ;; title_tail;
      line_start ;; many 1 (Some 3) is_digit ;; blanks ;; title_text t ;; title_tail ]) section_names.

(** ** The titles of the sections after it *)
Definition head : part := line_start ;; blanks ;; maybe (maybe (any_of "{(<[") ;; blanks ;; one is_word ;; blanks ;; maybe (any_of ")}>.-]") ;; blanks).
Definition colon : part := maybe (blanks ;; any_of ":" ;; blanks).
Definition plural : part := maybe (a_letter 115%N).
Definition its (lo : nat) (hi : nat) : part := many lo (Some hi) (some_of (letter_forms 105%N)).
Definition figure_number : part :=
  (digits or (one is_word ;; word_edge) or (its 1 3 ;; maybe (a_letter 118%N)) or (a_letter 118%N ;; its 0 3)) ;; many 0 (Some 2) (some_of (py ".,")) ;; word_edge.
Definition one_figure : part := one is_digit ;; maybe (one is_word) ;; word_edge.
Definition next_titles : list part :=
  [ head ;; spaced (py "appendix") ;; colon;
    head ;; spaced (py "appendices") ;; colon;
    head ;; spaced (py "acknowledgement") ;; plural ;; colon;
    head ;; spaced (py "acknowledgment") ;; plural ;; colon;
    head ;; spaced (py "table") ;; maybe (one is_word) ;; plural ;; maybe (one is_digit) ;; colon;
    head ;; spaced (py "figure") ;; plural ;; colon;
    head ;; spaced (py "list of figure") ;; plural ;; colon;
    head ;; spaced (py "annex") ;; plural ;; colon;
    head ;; spaced (py "discussion") ;; plural ;; colon;
    head ;; spaced (py "remercie") ;; plural ;; colon;
    head ;; spaced (py "index") ;; plural ;; colon;
    head ;; spaced (py "summary") ;; plural ;; colon;
    line_start ;; blanks ;; spaced (py "figure") ;; figure_number;
    line_start ;; blanks ;; spaced (py "fig") ;; any_of "." ;; blanks ;; figure_number;
    line_start ;; blanks ;; spaced (py "fig") ;; maybe (any_of ".") ;; blanks ;; one_figure;
    line_start ;; blanks ;; spaced (py "table") ;; figure_number;
    line_start ;; blanks ;; spaced (py "tab") ;; any_of "." ;; blanks ;; figure_number;
    line_start ;; blanks ;; spaced (py "tab") ;; maybe (any_of ".") ;; blanks ;; one_figure;
    line_start ;; blanks ;; one (fun c => existsb (fun x => some_of (letter_forms x) c) (py "lvix")) ;; maybe (any_of ".") ;; blanks ;; spelt (py "conclusion")
      ;; many 0 None (fun c => is_word c || is_space c) ;; line_end;
    line_start ;; blanks ;; spelt (py "appendix") ;; one is_space ;; one any_letter ;; blanks ;; any_of ":" ;; blanks ;; many 1 None any_letter ;; blanks ].

(** ** What a line begins with *)
Definition nothing : part := fun _ _ _ _ => False.
Definition begins (p : part) (l : str) : Prop := exists w b fs, l = w ++ b /\ p [] w b fs.
(** the line is a marker of the [k]th form, which is the first that fits, and the text after it *)
Definition marker_of (l : str) (k : nat) (w b : str) (fs : fields) : Prop :=
  k < 14 /\ l = w ++ b /\ nth k marks nothing [] w b fs /\ mark_ends k b /\ forall j, j < k -> ~ begins (nth j marks nothing) l.
Definition no_marker (l : str) : Prop := forall j, j < 14 -> ~ begins (nth j marks nothing) l.

(** ** The beginning and the end of the section *)
(** the line has a title of the [k]th form, whose text is [t] *)
Definition has_title (k : nat) (t l : str) : Prop := exists w b fs, l = w ++ b /\ nth k section_titles nothing [] w b fs /\ field_of Ftitle fs = Some t.
(** no line of the text has a title of one of the first [k] forms *)
Definition untitled (k : nat) (body : list str) : Prop := forall j l, j < k -> In l body -> ~ begins (nth j section_titles nothing) l.
(** [1], 1. and 1 *)
Definition number_texts : list part :=
  [ named Fmark (any_of "[" ;; blanks ;; named Fnumber digits ;; blanks ;; any_of "]");
    named Fmark (blanks ;; named Fnumber digits ;; blanks ;; any_of ".");
    named Fmark (blanks ;; named Fnumber digits ;; not_before is_digit ;; blanks) ].
Definition has_number (i : nat) (n m l : str) : Prop :=
  exists w b fs, l = w ++ b /\ nth i number_texts nothing [] w b fs /\ field_of Fnumber fs = Some n /\ field_of Fmark fs = Some m.
(** line [j] has the number 1, and the number 2 is among the next ten lines unless fewer than five follow *)
Definition starts_at (i : nat) (body : list str) (j : nat) : Prop :=
  exists line m, nth_error body j = Some line /\ has_number i (py "1") m (strip line)
    /\ (List.length (firstn 10 (skipn (S j) body)) < 5 \/ exists l m', In l (firstn 10 (skipn (S j) body)) /\ has_number i (py "2") m' (strip l)).
(** ** Ways of marking references *)
(** how the marker of a line is read: the line, the marker, the rest of the line and the fields *)
Definition reading := str -> str -> str -> fields -> Prop.
(** every form of markers, in their order *)
Definition any_mark : reading := fun l w b fs => exists k, marker_of l k w b fs.
(** only the [k]th form *)
Definition mark_form (k : nat) : reading := fun l w b fs => l = w ++ b /\ nth k marks nothing [] w b fs /\ mark_ends k b.
(** [1], 1. and 1 *)
Definition plain_form (i : nat) : reading := fun l w b fs => l = w ++ b /\ nth i number_texts nothing [] w b fs /\ (i = 2 -> ~ first_is is_space b).
(** the number of the marker of a line *)
Definition number_of (M : reading) (l : str) (n : N) : Prop := exists w b fs t, M (strip l) w b fs /\ field_of Fnumber fs = Some t /\ int_of_str t = Ok n.
(** the last number in some lines, 0 if there is none *)
Definition last_of (M : reading) (lines : list str) (n : N) : Prop :=
  (n = 0%N /\ forall l m, In l lines -> ~ number_of M l m) \/ exists l1 l l2, lines = l1 ++ l :: l2 /\ number_of M l n /\ forall x m, In x l2 -> ~ number_of M x m.
(** the line has a marker, more than digits, which continues the numbering after [n] if it has a number *)
Definition goes_on (M : reading) (n : N) (l : str) : Prop :=
  exists w b fs, M (strip l) w b fs /\ isdigit w = false /\ (field_of Fnumber fs <> None -> number_of M l (n + 1)%N).
(** line [n] is the title of another section and the references do not continue in the 199 lines after it *)
Definition next_title (M : reading) (lines : list str) (n : nat) : Prop :=
  exists line k m, nth_error lines n = Some line /\ k < 20 /\ begins (nth k next_titles nothing) (strip line) /\ last_of M (firstn (S n) lines) m
    /\ forall l, In l (firstn 199 (skipn (S n) lines)) -> ~ goes_on M m l.
(** the line has the marker [m] of the [k]th form, whose number is 1 if it has one *)
Definition mark_one (l : str) (k : nat) (m : str) : Prop :=
  exists w b fs, marker_of l k w b fs /\ field_of Fmark fs = Some m /\ (field_of Fnumber fs = None \/ field_of Fnumber fs = Some (py "1")).
(** the first such marker in some lines *)
Definition first_mark (lines : list str) (r : option (nat * str)) : Prop :=
  match r with
  | Some (k, m) => exists l1 l l2, lines = l1 ++ l :: l2 /\ mark_one l k m /\ forall x k' m', In x l1 -> ~ mark_one x k' m'
  | None => forall x k m, In x lines -> ~ mark_one x k m
  end.
(** a marker directly after the title; [same] is equality of letters up to case *)
Definition title_marks (same : ch -> ch -> Prop) (t : str) : list part := map (fun p => blanks ;; text (Forall2 same t) ;; named Fmark p) mark_texts.
Definition title_form (same : ch -> ch -> Prop) (t : str) (k : nat) : reading := fun l w b fs => l = w ++ b /\ nth k (title_marks same t) nothing [] w b fs /\ mark_ends k b.
Definition mark_after (same : ch -> ch -> Prop) (t l : str) (k : nat) (m : str) : Prop :=
  exists w b fs, k < 14 /\ title_form same t k l w b fs /\ field_of Fmark fs = Some m /\ forall j, j < k -> ~ begins (nth j (title_marks same t) nothing) l.
