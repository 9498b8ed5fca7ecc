(** Citation elements (the dictionaries built by the engine) and the heap of
    elements used after a line has been split into citations.

    An element is a Python dict.  The keys "type" and "misc_txt" are present in
    every element that the code creates and are never deleted; they are record
    fields here.  The other keys are kept in a list sorted by key, so that equality
    of the lists is Python's (order-insensitive) equality of the dicts. *)
From Coq Require Import List Arith NArith Bool.
From Verif Require Import PyStr.
Import ListNotations.
Open Scope nat_scope.

(** the values of element["type"] *)
Inductive ety :=
| JOURNAL | REPORTNUMBER | URL | DOI | HDL | AUTH | QUOTED | ISBN | BOOK
| PUBLISHER | YEAR | COLLABORATION | MISC | RECID.

(** the other keys *)
Inductive key :=
| Ktitle | Kvolume | Kyear | Kpage | Kpage_end | Kis_ibid | Kextra_ibids
| Kreport_num | Kis_arxiv | Kurl_string | Kurl_desc | Kdoi_string | Khdl_id
| Kauth_txt | Kauth_type | KISBN | Kauthors | Kpublisher | Kcollaboration | Krecid.

Definition ety_code (t : ety) : nat :=
  match t with
  | JOURNAL => 0 | REPORTNUMBER => 1 | URL => 2 | DOI => 3 | HDL => 4 | AUTH => 5
  | QUOTED => 6 | ISBN => 7 | BOOK => 8 | PUBLISHER => 9 | YEAR => 10
  | COLLABORATION => 11 | MISC => 12 | RECID => 13
  end.
Definition ety_eqb (a b : ety) : bool := ety_code a =? ety_code b.

Definition key_code (k : key) : nat :=
  match k with
  | Ktitle => 0 | Kvolume => 1 | Kyear => 2 | Kpage => 3 | Kpage_end => 4
  | Kis_ibid => 5 | Kextra_ibids => 6 | Kreport_num => 7 | Kis_arxiv => 8
  | Kurl_string => 9 | Kurl_desc => 10 | Kdoi_string => 11 | Khdl_id => 12
  | Kauth_txt => 13 | Kauth_type => 14 | KISBN => 15 | Kauthors => 16
  | Kpublisher => 17 | Kcollaboration => 18 | Krecid => 19
  end.
Definition key_eqb (a b : key) : bool := key_code a =? key_code b.

(** Values: text, None, booleans, the extra ibids of a journal (title, volume, year,
    page of each), and the result of the linker callback, of which the code uses only
    the truth value and [str()]. *)
Inductive val :=
| VS (s : str)
| VNone
| VB (b : bool)
| VIbids (l : list (str * str * str * str))
| VLink (truthy : bool) (text : str).

Fixpoint list_eqb {A} (f : A -> A -> bool) (a b : list A) : bool :=
  match a, b with
  | [], [] => true
  | x :: a', y :: b' => f x y && list_eqb f a' b'
  | _, _ => false
  end.
Definition ibid_eqb (a b : str * str * str * str) : bool :=
  let '(a1, a2, a3, a4) := a in let '(b1, b2, b3, b4) := b in
  eqs a1 b1 && eqs a2 b2 && eqs a3 b3 && eqs a4 b4.
Definition val_eqb (a b : val) : bool :=
  match a, b with
  | VS x, VS y => eqs x y
  | VNone, VNone => true
  | VB x, VB y => Bool.eqb x y
  | VIbids x, VIbids y => list_eqb ibid_eqb x y
  | VLink t x, VLink u y => Bool.eqb t u && eqs x y
  | _, _ => false
  end.

Definition dict := list (key * val).
Fixpoint dget (k : key) (d : dict) : option val :=
  match d with
  | [] => None
  | (k', v) :: t => if key_eqb k k' then Some v else dget k t
  end.
Fixpoint dset (k : key) (v : val) (d : dict) : dict :=
  match d with
  | [] => [(k, v)]
  | (k', v') :: t =>
    if key_eqb k k' then (k, v) :: t
    else if key_code k <? key_code k' then (k, v) :: d
    else (k', v') :: dset k v t
  end.
Definition ddel (k : key) (d : dict) : dict := filter (fun e => negb (key_eqb k (fst e))) d.

Record el := mkel { e_type : ety; e_misc : str; e_dict : dict }.

Definition entry_eqb (a b : key * val) : bool := key_eqb (fst a) (fst b) && val_eqb (snd a) (snd b).
Definition el_eqb (a b : el) : bool :=
  ety_eqb (e_type a) (e_type b) && eqs (e_misc a) (e_misc b) && list_eqb entry_eqb (e_dict a) (e_dict b).

(** el.get(k) *)
Definition get (k : key) (e : el) : option val := dget k (e_dict e).
(** el[k] where the code uses the value as a string: KeyError when absent, and
    TypeError stands for the failure of the string operation on another value *)
Definition get_str (k : key) (e : el) : res str :=
  match get k e with
  | Some (VS s) => Ok s
  | Some _ => Err TypeError
  | None => Err KeyError
  end.
Definition set (k : key) (v : val) (e : el) : el := mkel (e_type e) (e_misc e) (dset k v (e_dict e)).
Definition set_str (k : key) (s : str) (e : el) : el := set k (VS s) e.
Definition del (k : key) (e : el) : el := mkel (e_type e) (e_misc e) (ddel k (e_dict e)).
Definition set_misc (s : str) (e : el) : el := mkel (e_type e) s (e_dict e).
Definition set_type (t : ety) (e : el) : el := mkel t (e_misc e) (e_dict e).
Definition is_type (t : ety) (e : el) : bool := ety_eqb (e_type e) t.

(** truth value of a Python value *)
Definition truthy (v : val) : bool :=
  match v with
  | VS s => nonempty s
  | VNone => false
  | VB b => b
  | VIbids l => nonempty l
  | VLink t _ => t
  end.
Definition truthy_opt (v : option val) : bool := match v with Some x => truthy x | None => false end.

(** ** Lists of elements *)

(** l.remove(x): the first equal element *)
Fixpoint remove_first (x : el) (l : list el) : list el :=
  match l with
  | [] => []
  | y :: t => if el_eqb x y then t else y :: remove_first x t
  end.
(** l.index(x) *)
Fixpoint index_of (x : el) (l : list el) : option nat :=
  match l with
  | [] => None
  | y :: t => if el_eqb x y then Some 0 else option_map S (index_of x t)
  end.
Definition insert_at {A} (i : nat) (x : A) (l : list A) : list A := firstn i l ++ x :: skipn i l.
Fixpoint update_at {A} (i : nat) (f : A -> A) (l : list A) : list A :=
  match l, i with
  | [], _ => []
  | x :: t, O => f x :: t
  | x :: t, S i' => x :: update_at i' f t
  end.

(** ** Heap: the element objects shared by the citations of one line *)
Definition heap := list el.
Definition addr := nat.
Definition null_el : el := mkel MISC [] [].
(** The object at address [a]; addresses in use are always allocated
    (invariant [closed], proved for every function that allocates). *)
Definition deref (h : heap) (a : addr) : el := nth a h null_el.
Definition alloc (h : heap) (e : el) : heap * addr := (h ++ [e], length h).
Definition store (h : heap) (a : addr) (f : el -> el) : heap := update_at a f h.
