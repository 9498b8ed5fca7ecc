(** What a report number is (C63): the forms of its number, as a grammar of texts, which of several readings is preferred, and which
    report numbers a line has. Nothing here refers to the patterns of the code or to the matcher. *)
From Coq Require Import List Arith NArith Bool String.
From Verif Require Import PyStr CollabGrammar.
Import ListNotations.
Local Open Scope nat_scope.
Local Notation length := List.length.

Inductive piece :=
| Digit | MaybeDigit
| Blanks                        (* white space of any length *)
| Year4 | Year2                 (* 1xxx or 2xxx; two digits *)
| Month                         (* 01 to 12 *)
| Letter                        (* A to Z, a to z *)
| OneChar (l : string)          (* one of these *)
| Exact (w : string)
| Maybe (w o : string)          (* nothing, or w, or w with o behind it *)
| Either (u v : string)
| WordEdge.                     (* one side is a letter, digit or underscore and the other is not *)

Definition letter_az (c : ch) : bool := in_range 65 90 c || in_range 97 122 c.
Definition alnum_az (c : ch) : bool := letter_az c || in_range 48 57 c.
Definition wordy (l : str) : bool := match l with c :: _ => is_word c | [] => false end.
Definition months : list str := map py ["01"; "02"; "03"; "04"; "05"; "06"; "07"; "08"; "09"; "10"; "11"; "12"]%string.

(** w, standing between a and b, is such a piece *)
Definition piece_text (p : piece) (a w b : str) : Prop :=
  match p with
  | Digit => exists d, w = [d] /\ is_digit d = true
  | MaybeDigit => w = [] \/ exists d, w = [d] /\ is_digit d = true
  | Blanks => whites w
  | Year4 => exists c x y z, w = [c; x; y; z] /\ one_of "12" c /\ is_digit x = true /\ is_digit y = true /\ is_digit z = true
  | Year2 => exists x y, w = [x; y] /\ is_digit x = true /\ is_digit y = true
  | Month => In w months
  | Letter => exists d, w = [d] /\ letter_az d = true
  | OneChar l => exists d, w = [d] /\ one_of l d
  | Exact u => w = py u
  | Maybe u o => w = [] \/ w = py u \/ w = py u ++ py o
  | Either u v => w = py u \/ w = py v
  | WordEdge => w = [] /\ wordy (rev a) <> wordy b
  end.
Fixpoint number_text (f : list piece) (a w b : str) : Prop :=
  match f with
  | [] => w = []
  | p :: f => exists u v, w = u ++ v /\ piece_text p a u (v ++ b) /\ number_text f (a ++ u) v b
  end.

(** what may stand before a report number: nothing at the start of the text, or else a character other than A-Z a-z 0-9 / . - *)
Definition lead_text (a l : str) : Prop := (l = [] /\ a = []) \/ exists c, l = [c] /\ alnum_az c = false /\ ~ one_of "/.-" c.
Definition maybe_one (cs : string) (w : str) : Prop := w = [] \/ exists c, w = [c] /\ one_of cs c.
(** l, an opening bracket, the category cat, a number n in one of the forms, a closing bracket *)
Definition report_text (cat : str) (forms : list (list piece)) (a l br n cl b : str) : Prop :=
  lead_text a l /\ maybe_one "[(" br /\ (exists f, In f forms /\ number_text f (a ++ l ++ br ++ cat) n (cl ++ b)) /\ maybe_one "])" cl.

(** The readings of a piece at the beginning of the text s, the preferred first: more blanks and more digits before fewer *)
Definition first_if (f : ch -> bool) (s : str) : list str := match s with c :: _ => if f c then [[c]] else [] | [] => [] end.
Fixpoint all_while (f : ch -> bool) (s : str) : list str := match s with c :: t => if f c then map (cons c) (all_while f t) ++ [[]] else [[]] | [] => [[]] end.
Definition exactly (w s : str) : list str := if prefixb w s then [w] else [].
Definition is_in (l : string) (c : ch) : bool := existsb (N.eqb c) (py l).
Definition piece_readings (p : piece) (a s : str) : list str :=
  match p with
  | Digit => first_if is_digit s
  | MaybeDigit => first_if is_digit s ++ [[]]
  | Blanks => all_while is_space s
  | Year4 => match s with c :: x :: y :: z :: _ => if is_in "12" c && is_digit x && is_digit y && is_digit z then [[c; x; y; z]] else [] | _ => [] end
  | Year2 => match s with x :: y :: _ => if is_digit x && is_digit y then [[x; y]] else [] | _ => [] end
  | Month => match s with x :: y :: _ => if existsb (fun m => if list_eq_dec N.eq_dec m [x; y] then true else false) months then [[x; y]] else [] | _ => [] end
  | Letter => first_if letter_az s
  | OneChar l => first_if (is_in l) s
  | Exact u => exactly (py u) s
  | Maybe u o => (match py o with [] => [] | _ => exactly (py u ++ py o) s end) ++ exactly (py u) s ++ [[]]
  | Either u v => exactly (py u) s ++ exactly (py v) s
  | WordEdge => if xorb (wordy (rev a)) (wordy s) then [[]] else []
  end.
Fixpoint number_readings (f : list piece) (a s : str) : list str :=
  match f with
  | [] => [[]]
  | p :: f => flat_map (fun u => map (app u) (number_readings f (a ++ u) (skipn (length u) s))) (piece_readings p a s)
  end.
Definition lead_readings (a s : str) : list str :=
  (match a with [] => [[]] | _ => [] end) ++ first_if (fun c => negb (alnum_az c || is_in "/.-" c)) s.
(** the readings as a report number at the beginning of s, after a *)
Definition report_readings (cat : str) (forms : list (list piece)) (a s : str) : list (str * str * str * str) :=
  flat_map (fun l => let s1 := skipn (length l) s in
  flat_map (fun br => let s2 := skipn (length br) s1 in
  flat_map (fun c => let s3 := skipn (length c) s2 in
  flat_map (fun f =>
  flat_map (fun n => map (fun cl => (l, br, n, cl)) (first_if (is_in "])") (skipn (length n) s3) ++ [[]]))
    (number_readings f (a ++ l ++ br ++ c) s3)) forms)
    (exactly cat s2)) (first_if (is_in "[(") s1 ++ [[]])) (lead_readings a s).

(** the report numbers of a text from the left to the right: where each begins, how long it is, and its number *)
Inductive report_list (cat : str) (forms : list (list piece)) : str -> str -> list (nat * nat * str) -> Prop :=
| report_end a : report_list cat forms a [] []
| report_skip a x s h : (forall l br n cl b, x :: s = l ++ br ++ cat ++ n ++ cl ++ b -> ~ report_text cat forms a l br n cl b) ->
    report_list cat forms (a ++ [x]) s h -> report_list cat forms a (x :: s) h
| report_here a l br n cl b h : report_text cat forms a l br n cl b ->
    hd_error (report_readings cat forms a (l ++ br ++ cat ++ n ++ cl ++ b)) = Some (l, br, n, cl) ->
    report_list cat forms (a ++ l ++ br ++ cat ++ n ++ cl) b h ->
    report_list cat forms a (l ++ br ++ cat ++ n ++ cl ++ b) ((length a + length l, length (br ++ cat ++ n ++ cl), n) :: h).
