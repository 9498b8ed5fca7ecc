(** What a tagged line says (C60): its tags with the texts between them, and the elements that are to be read from it. Nothing here
    refers to the parser or to its patterns. *)
From Coq Require Import List Arith NArith Bool String.
From Verif Require Import PyStr Elements NumGrammar SectGrammar.
Import ListNotations.
Local Open Scope nat_scope.

(** ** Numerations behind a title *)
Definition word (t : string) : part := text (fun w => w = py t).
Definition inner : part := many 1 None (fun c => negb (N.eqb c 60)).
(** A to H, I to IIIV, V to VIII *)
Definition series : part :=
  maybe (named Fseries (one (in_range 65 72) or (many 1 (Some 3) (some_of (py "I")) ;; maybe (any_of "V")) or (any_of "V" ;; many 0 (Some 3) (some_of (py "I"))))).
Definition within (n : string) (p : part) : part := word ("<cds." ++ n ++ ">") ;; p ;; word ("</cds." ++ n ++ ">").
(** the first one: Ser. A: <VOL> <YR> <PG>, the year may be missing *)
Definition numeration : part :=
  line_start ;; blanks ;; maybe (any_of ".,") ;; blanks ;; maybe (word "Ser." ;; blanks) ;; series ;; blanks ;; maybe (any_of ":") ;; blanks ;;
  within "VOL" (named Fvolume inner) ;; blanks ;; maybe (any_of " " ;; within "YR" (any_of "(" ;; named Fyear inner ;; any_of ")")) ;; blanks ;; any_of " " ;; within "PG" (named Fpage inner).
(** a further one of the same title, behind a semicolon or "and" *)
Definition further : part :=
  line_start ;; ((blanks ;; any_of ";" ;; blanks) or (many 1 None is_space ;; word "and" ;; many 1 None is_space)) ;; series ;; blanks ;; maybe (any_of ":") ;; one is_space ;;
  within "VOL" (named Fvolume (digits or (digits ;; any_of "-" ;; digits))) ;; one is_space ;; within "YR" (any_of "(" ;; named Fyear (any_of "12" ;; many 3 (Some 3) is_digit) ;; any_of ")") ;; one is_space ;;
  within "PG" (named Fpage (maybe (any_of "RL") ;; digits ;; maybe (any_of "c"))).
Definition or_none (t : option str) : str := match t with Some s => s | None => [] end.
(** the volume has the letter or number of the series before it *)
Definition volume_of (fs : fields) : str := or_none (field_of Fseries fs) ++ or_none (field_of Fvolume fs).
Definition year_of (fs : fields) : str := or_none (field_of Fyear fs).
Definition page_of (fs : fields) : str := or_none (field_of Fpage fs).

(** ** The contents of a line *)
(** a numeration as it is written and what it says *)
Definition numbers : Type := str * fields.
Inductive item :=
| Report (t : str)                               (* a report number *)
| Arxiv (t : str)
| Url (address text : str)
| Doi (t : str)
| Author (kind : string) (t : str)
| Quoted (t : str)
| Isbn (t : str)
| Publisher (t : str)
| Collaboration (t : str)
| Loose (tag : string) (t : str)                 (* a volume, year, page or series without a journal *)
| Title (ibid : bool) (t : str)                  (* a journal without numeration *)
| Journal (ibid : bool) (t : str) (n : numbers) (more : list numbers).
Definition tag (n : string) (t : str) : str := (py "<cds." ++ py n ++ py ">") ++ t ++ py "</cds." ++ py n ++ py ">".
Definition name_of (i : item) : string :=
  match i with
  | Report _ => "REPORTNUMBER" | Arxiv _ => "ARXIV" | Url _ _ => "URL" | Doi _ => "DOI" | Author k _ => "AUTH" ++ k | Quoted _ => "QUOTED" | Isbn _ => "ISBN" | Publisher _ => "PUBLISHER"
  | Collaboration _ => "COLLABORATION" | Loose n _ => n | Title false _ | Journal false _ _ _ => "JOURNAL" | Title true _ | Journal true _ _ _ => "JOURNALibid"
  end.
Definition write (i : item) : str :=
  match i with
  | Report t | Arxiv t | Author _ t | Quoted t | Isbn t | Publisher t | Collaboration t | Loose _ t | Title _ t => tag (name_of i) t
  | Url _ _ => py "<cds.URL />"
  | Doi _ => py "<cds.DOI />"
  | Journal _ t n more => tag (name_of i) t ++ fst n ++ flat_map fst more
  end.
(** a line: texts, each with an item behind it, and a last text *)
Definition contents : Type := list (str * item).
Definition write_line (l : contents) (last : str) : str := flat_map (fun q => fst q ++ write (snd q)) l ++ last.
Definition urls_of (l : contents) : list (str * str) := flat_map (fun q => match snd q with Url u d => [(u, d)] | _ => [] end) l.
Definition dois_of (l : contents) : list str := flat_map (fun q => match snd q with Doi d => [d] | _ => [] end) l.

(** ** The elements to be read from it *)
(** each item with the text before it gives an element; what is tagged but cannot be used goes to the text of the next one *)
Definition ibids (t : str) (more : list numbers) : list (str * str * str * str) :=
  match more with [] => [] | n :: more' => (t, volume_of (snd n), year_of (snd n), page_of (snd n)) :: map (fun n => ([], volume_of (snd n), year_of (snd n), page_of (snd n))) more' end.
Definition element (misc : str) (i : item) : el + str :=
  match i with
  | Report t => inl (mkel REPORTNUMBER misc [(Kreport_num, VS t)])
  | Arxiv t => inl (mkel REPORTNUMBER misc [(Kreport_num, VS t); (Kis_arxiv, VB true)])
  | Url u d => inl (mkel URL misc [(Kurl_string, VS u); (Kurl_desc, VS d)])
  | Doi d => inl (mkel DOI misc [(Kdoi_string, VS d)])
  | Author k t => inl (mkel AUTH misc [(Kauth_txt, VS t); (Kauth_type, VS (py k))])
  | Quoted t => inl (mkel QUOTED misc [(Ktitle, VS t)])
  | Isbn t => inl (mkel ISBN misc [(KISBN, VS t)])
  | Publisher t => inl (mkel PUBLISHER misc [(Kpublisher, VS t)])
  | Collaboration t => inl (mkel COLLABORATION misc [(Kcollaboration, VS t)])
  | Loose _ t | Title _ t => inr (misc ++ t)
  | Journal ibid t n more =>
    inl (mkel JOURNAL misc [(Ktitle, VS t); (Kvolume, VS (volume_of (snd n))); (Kyear, VS (year_of (snd n))); (Kpage, VS (page_of (snd n))); (Kis_ibid, VB ibid); (Kextra_ibids, VIbids (ibids t more))])
  end.
Fixpoint elements (misc : str) (l : contents) (last : str) : list el :=
  match l with
  | [] => if forallb (some_of (py " .;,")) (misc ++ last) then [] else [mkel MISC (misc ++ last) []]
  | (a, i) :: l' => match element (misc ++ a) i with inl e => e :: elements [] l' last | inr m => elements m l' last end
  end.

(** ** Which contents can be read back *)
(** the texts have no tags; behind a title alone stands no numeration, and behind a journal none that is left out *)
Definition plain (t : str) : Prop := forall u v, t <> u ++ py "<cds." ++ v /\ t <> u ++ py "</cds." ++ v.
Definition item_ok (i : item) (rest : str) : Prop :=
  match i with
  | Report t | Arxiv t | Quoted t | Isbn t | Publisher t | Collaboration t => plain t
  | Url _ _ | Doi _ => True
  | Author k t => plain t /\ In k ["stnd"; "etal"; "incl"]%string
  | Loose n t => plain t /\ In n ["SER"; "VOL"; "YR"; "PG"]%string
  | Title _ t => plain t /\ ~ begins numeration rest
  | Journal _ t n more => plain t /\ numeration [] (fst n) [] (snd n) /\ Forall (fun n => further [] (fst n) [] (snd n)) more /\ ~ begins further rest
  end.
Fixpoint contents_ok (l : contents) (last : str) : Prop :=
  match l with [] => plain last | (a, i) :: l' => plain a /\ item_ok i (write_line l' last) /\ contents_ok l' last end.
