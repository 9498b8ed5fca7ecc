(** Model of refextract/references/engine.py 301-374: splitting the elements of one
    line into citations.  The element objects live in a heap because one author object
    can end up in two citations (postpone_last_auth). *)
From Coq Require Import List Arith NArith Bool.
From Verif Require Import PyStr Elements.
Import ListNotations.
Open Scope nat_scope.

Inductive reason := Semicolon | Repeated.
Definition is_repeated (r : option reason) : bool :=
  match r with Some Repeated => true | _ => false end.

(** "ARXIV" if el.get("is_arxiv") else el["type"] *)
Inductive ctype := Arxiv | Ty (t : ety).
Definition ctype_eqb (a b : ctype) : bool :=
  match a, b with
  | Arxiv, Arxiv => true
  | Ty x, Ty y => ety_eqb x y
  | _, _ => false
  end.
Definition ctype_of (e : el) : ctype :=
  if truthy_opt (get Kis_arxiv e) then Arxiv else Ty (e_type e).
Definition repeatable (c : ctype) : bool :=
  match c with Ty REPORTNUMBER | Ty COLLABORATION => true | _ => false end.

(** split_needed, engine.py 301-311; the set current_types is a list *)
Definition split_needed (e : el) (types : list ctype) (last : option ctype) : option reason :=
  let c := ctype_of e in
  if mem_ch 59%N (e_misc e) then Some Semicolon
  else if (existsb (ctype_eqb c) types && negb (repeatable c))
          || (match last with Some l => ctype_eqb l c | None => false end && negb (repeatable c))
       then Some Repeated else None.

(** the last element of type AUTH and the list without it *)
Fixpoint take_last_auth (h : heap) (c : list addr) : option (addr * list addr) :=
  match c with
  | [] => None
  | a :: t =>
    match take_last_auth h t with
    | Some (x, t') => Some (x, a :: t')
    | None => if is_type AUTH (deref h a) then Some (a, t) else None
    end
  end.
(** postpone_last_auth, engine.py 314-322: the author and the citation afterwards
    ([pop] when there are several authors, [__getitem__] when there is one) *)
Definition postpone_last_auth (h : heap) (c : list addr) (num_auth : nat) : option addr * list addr :=
  if num_auth =? 0 then (None, c)
  else match take_last_auth h c with
       | None => (None, c)
       | Some (x, c') => (Some x, if num_auth =? 1 then c else c')
       end.

Record sst := mksst {
  s_heap : heap; s_cur : list addr; s_types : list ctype; s_last : option ctype;
  s_nauth : nat; s_postponed : option addr; s_prev : option reason;
  s_out : list (list addr) }.
Definition s_init (h : heap) : sst := mksst h [] [] None 0 None None [].

Definition insert_postponed (s : sst) : list addr * nat :=
  match s_postponed s with
  | Some p => if (s_nauth s =? 0) || is_repeated (s_prev s)
              then (p :: s_cur s, S (s_nauth s)) else (s_cur s, s_nauth s)
  | None => (s_cur s, s_nauth s)
  end.

(** lines 344-360: a new citation begins at the element [a] *)
Definition split_at (s : sst) (a : addr) (r : reason) : sst :=
  let s1 :=
    match r with
    | Semicolon =>
      match split1 59%N (e_misc (deref (s_heap s) a)) with
      | Some (misc, rest) =>
        let h1 := store (s_heap s) a (set_misc rest) in
        let (h2, x) := alloc h1 (mkel MISC misc []) in
        mksst h2 (s_cur s ++ [x]) (s_types s) (s_last s) (s_nauth s) (s_postponed s) (s_prev s) (s_out s)
      | None => s
      end
    | Repeated => s
    end in
  let (cur, n) := insert_postponed s1 in
  let (p, cur') := postpone_last_auth (s_heap s1) cur n in
  mksst (s_heap s1) [] [] None 0 p (Some r) (s_out s1 ++ [cur']).

(** lines 362-371 *)
Definition push (s : sst) (a : addr) : sst :=
  let e := deref (s_heap s) a in
  let cur := s_cur s ++ [a] in
  match e_type e with
  | MISC => mksst (s_heap s) cur (s_types s) (s_last s) (s_nauth s) (s_postponed s) (s_prev s) (s_out s)
  | AUTH => mksst (s_heap s) cur (s_types s) (s_last s) (S (s_nauth s)) (s_postponed s) (s_prev s) (s_out s)
  | _ => let c := ctype_of e in
         mksst (s_heap s) cur (c :: s_types s) (Some c) (s_nauth s) (s_postponed s) (s_prev s) (s_out s)
  end.

Definition split_step (s : sst) (a : addr) : sst :=
  match split_needed (deref (s_heap s) a) (s_types s) (s_last s) with
  | Some r => push (split_at s a r) a
  | None => push s a
  end.

(** list(split_citations_iter(citation_elements)), engine.py 325-374: the heap and the
    citations *)
Definition split_citations (els : list el) : heap * list (list addr) :=
  let s := fold_left split_step (seq 0 (length els)) (s_init els) in
  (s_heap s, s_out s ++ [fst (insert_postponed s)]).
