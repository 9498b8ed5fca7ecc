(** A backtracking matcher for the part of Python's [re] used in refextract.

    The matcher explores alternatives in the order of CPython's engine (leftmost,
    greedy/lazy priorities, captures of the last iteration), so that the returned
    match object is the one Python returns.  Difference to CPython: an optional
    iteration of a repetition that consumes nothing is not attempted.  The only pattern
    of the code base that repeats a body which can match the empty string is
    [(-|\b)?] in re_ibid; its group is not used. *)
From Coq Require Import List Arith NArith Bool Lia.
From Verif Require Import UnicodeTables PyStr.
Import ListNotations.
Open Scope nat_scope.

(** ** Syntax *)

(** Elements of a character class; the boolean is [false] for the negated forms
    \S, \D, \W. *)
Inductive citem :=
| CRange (lo hi : N)
| CSpace (b : bool)
| CDigit (b : bool)
| CWord (b : bool).

Record cls := mkcls { c_neg : bool; c_ci : bool; c_items : list citem }.

Inductive re :=
| Eps
| Cls (c : cls)
| Any                                              (* . *)
| Cat (a b : re)
| Alt (a b : re)
| Rep (greedy : bool) (min : nat) (max : option nat) (a : re)
| Grp (i : nat) (a : re)
| Look (ahead neg : bool) (w : nat) (a : re)       (* w: width of a look-behind *)
| Bos | Eos | Wordb | NWordb.                      (* ^ $ \b \B *)

(** ** Characters *)

Definition opt_list {A} (o : option A) : list A := match o with Some a => [a] | None => [] end.

(** The characters that [re.IGNORECASE] identifies with [c]. *)
Definition case_variants (c : N) : list N :=
  let ascii l := l :: (l - 32)%N ::
     (if N.eqb l 105 then [304; 305] else if N.eqb l 115 then [383]
      else if N.eqb l 107 then [8490] else [])%N in
  if is_lower_ascii c then ascii c
  else if is_upper_ascii c then ascii (c + 32)%N
  else if (c <? 128)%N then [c]
  else if N.eqb c 304 || N.eqb c 305 then ascii 105%N
  else if N.eqb c 383 then ascii 115%N
  else if N.eqb c 8490 then ascii 107%N
  else c :: opt_list (run_map c lower_runs) ++ opt_list (run_map c upper_runs).

Definition item_mem (ci : bool) (c : N) (i : citem) : bool :=
  match i with
  | CRange lo hi => if ci then existsb (in_range lo hi) (case_variants c) else in_range lo hi c
  | CSpace b => Bool.eqb b (is_space c)
  | CDigit b => Bool.eqb b (is_digit c)
  | CWord b => Bool.eqb b (is_word c)
  end.
Definition cls_mem (k : cls) (c : N) : bool :=
  xorb (c_neg k) (existsb (item_mem (c_ci k) c) (c_items k)).

(** ** Matcher *)

(** Position in the subject: number of characters before, those characters in
    reverse, the characters after. *)
Record st := mkst { pos : nat; pre : str; suf : str }.
Definition init (s : str) : st := mkst 0 [] s.
Definition groups := list (nat * (nat * nat)).
Definition cont := st -> groups -> option (st * groups).

Definition step (x : st) : option (N * st) :=
  match suf x with
  | [] => None
  | c :: t => Some (c, mkst (S (pos x)) (c :: pre x) t)
  end.
Fixpoint back (w : nat) (x : st) : option st :=
  match w with
  | O => Some x
  | S w' => match pre x with
            | [] => None
            | c :: t => back w' (mkst (pos x - 1) t (c :: suf x))
            end
  end.
Definition hd_is_word (l : str) : bool := match l with c :: _ => is_word c | [] => false end.
Definition at_boundary (x : st) : bool := xorb (hd_is_word (pre x)) (hd_is_word (suf x)).
Definition below (n : nat) (mx : option nat) : bool :=
  match mx with None => true | Some k => n <? k end.

Definition orelse {A} (a : option A) (b : unit -> option A) : option A :=
  match a with Some _ => a | None => b tt end.

Fixpoint m (r : re) (x : st) (g : groups) (k : cont) {struct r} : option (st * groups) :=
  match r with
  | Eps => k x g
  | Cls c => match step x with
             | Some (d, x') => if cls_mem c d then k x' g else None
             | None => None
             end
  | Any => match step x with
           | Some (d, x') => if N.eqb d 10 then None else k x' g
           | None => None
           end
  | Cat a b => m a x g (fun x' g' => m b x' g' k)
  | Alt a b => orelse (m a x g k) (fun _ => m b x g k)
  | Rep gr mn mx a =>
    (fix rep (fuel n : nat) (x : st) (g : groups) {struct fuel} : option (st * groups) :=
       match fuel with
       | O => None
       | S f =>
         let more := fun _ : unit =>
           if below n mx
           then m a x g (fun x' g' =>
                  if (n <? mn) || (pos x <? pos x') then rep f (S n) x' g' else None)
           else None in
         let stop := fun _ : unit => if mn <=? n then k x g else None in
         if gr then orelse (more tt) stop else orelse (stop tt) more
       end) (S (mn + length (suf x))) 0 x g
  | Grp i a => m a x g (fun x' g' => k x' ((i, (pos x, pos x')) :: g'))
  | Look true ng _ a =>
    match m a x g (fun x' g' => Some (x', g')) with
    | Some (_, g') => if ng then None else k x g'
    | None => if ng then k x g else None
    end
  | Look false ng w a =>
    match back w x with
    | None => if ng then k x g else None
    | Some y =>
      match m a y g (fun x' g' => if pos x' =? pos x then Some (x', g') else None) with
      | Some (_, g') => if ng then None else k x g'
      | None => if ng then k x g else None
      end
    end
  | Bos => if pos x =? 0 then k x g else None
  | Eos => match suf x with
           | [] => k x g
           | [c] => if N.eqb c 10 then k x g else None
           | _ => None
           end
  | Wordb => if at_boundary x then k x g else None
  | NWordb => if at_boundary x then None else k x g
  end.

(** ** Match objects, match, search, finditer *)

Record mobj := mkmobj { m_start : nat; m_end : nat; m_groups : groups }.

(** Try to match at [x]; [adv]: the empty match is excluded. *)
Definition run (r : re) (adv : bool) (x : st) : option mobj :=
  match m r x [] (fun x' g' => if adv && (pos x' =? pos x) then None else Some (x', g')) with
  | Some (x', g') => Some (mkmobj (pos x) (pos x') g')
  | None => None
  end.

(** pattern.match(s) *)
Definition re_match (r : re) (s : str) : option mobj := run r false (init s).

Fixpoint search_at (r : re) (p : nat) (pr : str) (s : str) : option mobj :=
  match run r false (mkst p pr s) with
  | Some o => Some o
  | None => match s with [] => None | c :: t => search_at r (S p) (c :: pr) t end
  end.
(** pattern.search(s) *)
Definition re_search (r : re) (s : str) : option mobj := search_at r 0 [] s.

(** pattern.finditer(s): left to right, not overlapping; an empty match is never
    reported twice at the same place, and may be followed by a non-empty match at
    the same place (Python >= 3.7). [skip]: characters to pass over. *)
Fixpoint iter_at (r : re) (p : nat) (pr : str) (s : str) (skip : nat) {struct s} : list mobj :=
  let next := fun k => match s with [] => [] | c :: t => iter_at r (S p) (c :: pr) t k end in
  match skip with
  | S k => next k
  | O =>
    let x := mkst p pr s in
    match run r false x with
    | None => next 0
    | Some o =>
      if m_end o =? p
      then o :: match run r true x with
                | Some o2 => o2 :: next (m_end o2 - p - 1)
                | None => next 0
                end
      else o :: next (m_end o - p - 1)
    end
  end.
Definition re_finditer (r : re) (s : str) : list mobj := iter_at r 0 [] s 0.

Fixpoint lookup_group (i : nat) (g : groups) : option (nat * nat) :=
  match g with
  | [] => None
  | (j, v) :: t => if i =? j then Some v else lookup_group i t
  end.
(** match.span(i), [None] when the group did not take part in the match *)
Definition g_span (o : mobj) (i : nat) : option (nat * nat) :=
  if i =? 0 then Some (m_start o, m_end o) else lookup_group i (m_groups o).
(** match.group(i) for the subject [s] *)
Definition g_text (s : str) (o : mobj) (i : nat) : option str :=
  match g_span o i with Some (a, b) => Some (slice a b s) | None => None end.
(** the same, the empty string for an absent group (as in re.sub templates) *)
Definition g_str (s : str) (o : mobj) (i : nat) : str :=
  match g_text s o i with Some t => t | None => [] end.

(** pattern.sub(f, s): [f] receives the match object *)
Fixpoint sub_from (s : str) (f : mobj -> str) (p : nat) (ms : list mobj) : str :=
  match ms with
  | [] => skipn p s
  | o :: t => slice p (m_start o) s ++ f o ++ sub_from s f (m_end o) t
  end.
Definition re_sub (r : re) (f : mobj -> str) (s : str) : str := sub_from s f 0 (re_finditer r s).
(** pattern.sub(f, s, count=1) *)
Definition re_sub1 (r : re) (f : mobj -> str) (s : str) : str :=
  sub_from s f 0 (firstn 1 (re_finditer r s)).
(** pattern.findall(s) for a pattern without groups *)
Definition re_findall (r : re) (s : str) : list str :=
  map (fun o => slice (m_start o) (m_end o) s) (re_finditer r s).

(** A compiled pattern: syntax tree and group names. *)
Record rx := mkrx { rx_re : re; rx_names : list (str * nat) }.
Fixpoint assoc_str {A} (n : str) (l : list (str * A)) : option A :=
  match l with
  | [] => None
  | (k, v) :: t => if eqs n k then Some v else assoc_str n t
  end.
(** match.group(name): IndexError when the pattern has no such group *)
Definition group_named (p : rx) (s : str) (o : mobj) (n : str) : res (option str) :=
  match assoc_str n (rx_names p) with
  | Some i => Ok (g_text s o i)
  | None => Err IndexError
  end.

(** regex_match_list: references/regexs.py 1070-1086 *)
Fixpoint regex_match_list (s : str) (ps : list rx) : option (rx * mobj) :=
  match ps with
  | [] => None
  | p :: t => match re_match (rx_re p) s with
              | Some o => Some (p, o)
              | None => regex_match_list s t
              end
  end.
