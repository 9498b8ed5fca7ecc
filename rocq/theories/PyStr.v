(** Python strings as lists of code points, the [str] methods used by refextract,
    and Python exceptions as values.

    Sources of the semantics: the Python language reference; nothing here is
    specific to /repo except that only the methods used there are defined. *)
From Coq Require Import List NArith ZArith Bool String Ascii Lia.
From Verif Require Import UnicodeTables.
Import ListNotations.
Open Scope nat_scope.

(** ** Exceptions *)

(** The exception classes that the modelled code can raise.  [OutOfFuel] is not a
    Python exception: it marks the exhaustion of the iteration bound of a loop of
    the model and is proved unreachable wherever it is used. *)
Inductive exn :=
| IndexError | KeyError | ValueError | TypeError | AttributeError
| UnboundLocalError | AssertionError | ReError
| FullTextNotAvailableError | UnknownDocumentTypeError | HTTPError | OSError
| OtherError (n : nat)
| OutOfFuel.

Inductive res (A : Type) := Ok (a : A) | Err (e : exn).
Arguments Ok {A}. Arguments Err {A}.

Definition bind {A B} (r : res A) (f : A -> res B) : res B :=
  match r with Ok a => f a | Err e => Err e end.
Notation "'let*' x ':=' r 'in' k" := (bind r (fun x => k))
  (at level 200, x pattern, r at level 100, k at level 200, right associativity).

Fixpoint mapM {A B} (f : A -> res B) (l : list A) : res (list B) :=
  match l with
  | [] => Ok []
  | a :: t => let* b := f a in let* bs := mapM f t in Ok (b :: bs)
  end.

(** ** Strings *)

Definition ch := N.
Definition str := list ch.

(** String literals: the bytes of a Coq string literal read as UTF-8. *)
Fixpoint utf8 (bs : list N) : str :=
  match bs with
  | [] => []
  | b :: t1 =>
    if (b <? 128)%N then b :: utf8 t1 else
    match t1 with
    | [] => [b]
    | b2 :: t2 =>
      if (b <? 224)%N then ((b - 192) * 64 + (b2 - 128))%N :: utf8 t2 else
      match t2 with
      | [] => [b; b2]
      | b3 :: t3 =>
        if (b <? 240)%N then ((b - 224) * 4096 + (b2 - 128) * 64 + (b3 - 128))%N :: utf8 t3 else
        match t3 with
        | [] => [b; b2; b3]
        | b4 :: t4 => ((b - 240) * 262144 + (b2 - 128) * 4096 + (b3 - 128) * 64 + (b4 - 128))%N :: utf8 t4
        end
      end
    end
  end.
Definition py (s : string) : str := utf8 (map N_of_ascii (list_ascii_of_string s)).

Fixpoint eqs (a b : str) : bool :=
  match a, b with
  | [], [] => true
  | x :: a', y :: b' => N.eqb x y && eqs a' b'
  | _, _ => false
  end.

Definition mem_ch (c : ch) (s : str) : bool := existsb (N.eqb c) s.
Definition mem_str (x : str) (l : list str) : bool := existsb (eqs x) l.

(** ** Character classes *)

(** Membership in a sorted list of disjoint ranges. *)
Fixpoint in_ranges (c : N) (rs : list (N*N)) : bool :=
  match rs with
  | [] => false
  | (lo, hi) :: t => if (c <? lo)%N then false else if (c <=? hi)%N then true else in_ranges c t
  end.

Definition in_range (lo hi c : N) : bool := (lo <=? c)%N && (c <=? hi)%N.

(** [str.isspace], [\s] and the default [str.strip] set. *)
Definition is_space (c : ch) : bool :=
  in_ranges c [(9,13); (28,32); (133,133); (160,160); (5760,5760); (8192,8202);
               (8232,8233); (8239,8239); (8287,8287); (12288,12288)]%N.
Definition is_ascii_digit (c : ch) : bool := in_range 48 57 c.
Definition is_upper_ascii (c : ch) : bool := in_range 65 90 c.
Definition is_lower_ascii (c : ch) : bool := in_range 97 122 c.
(** [\d] *)
Definition is_digit (c : ch) : bool :=
  if (c <? 128)%N then is_ascii_digit c else in_ranges c digit_ranges.
(** [\w] *)
Definition is_word (c : ch) : bool :=
  if (c <? 128)%N
  then is_ascii_digit c || is_upper_ascii c || is_lower_ascii c || N.eqb c 95
  else in_ranges c word_ranges.
(** [str.isdigit] on one character *)
Definition is_isdigit (c : ch) : bool :=
  is_digit c || in_ranges c other_isdigit_ranges.

(** Decimal value of an Nd character. *)
Fixpoint digit_base (c : N) (rs : list (N*N)) : option N :=
  match rs with
  | [] => None
  | (lo, hi) :: t =>
    if (c <? lo)%N then None
    else if (c <=? hi)%N then Some ((c - lo) mod 10)%N else digit_base c t
  end.
Definition digit_value (c : ch) : option N :=
  if (c <? 128)%N
  then (if is_ascii_digit c then Some (c - 48)%N else None)
  else digit_base c digit_ranges.

(** Case mapping. *)
Fixpoint run_map (c : N) (rs : list (N*N*N*Z)) : option N :=
  match rs with
  | [] => None
  | (lo, hi, step, d) :: t =>
    if (c <? lo)%N then None
    else if (c <=? hi)%N && N.eqb ((c - lo) mod step) 0
         then Some (Z.to_N (Z.of_N c + d)) else run_map c t
  end.
Fixpoint assoc_N {A} (c : N) (l : list (N * A)) : option A :=
  match l with
  | [] => None
  | (k, v) :: t => if N.eqb c k then Some v else assoc_N c t
  end.
Definition upper_ch (c : ch) : str :=
  if (c <? 128)%N
  then (if is_lower_ascii c then [(c - 32)%N] else [c])
  else match run_map c upper_runs with
       | Some d => [d]
       | None => match assoc_N c upper_multi with Some l => l | None => [c] end
       end.
Definition lower_ch (c : ch) : str :=
  if (c <? 128)%N
  then (if is_upper_ascii c then [(c + 32)%N] else [c])
  else match run_map c lower_runs with
       | Some d => [d]
       | None => match assoc_N c lower_multi with Some l => l | None => [c] end
       end.
Definition upper (s : str) : str := flat_map upper_ch s.
(** The final-sigma rule of [str.lower] is not modelled. *)
Definition lower (s : str) : str := flat_map lower_ch s.

(** ** Slicing and searching *)

(** s[a:b] for non-negative a, b *)
Definition slice (a b : nat) (s : str) : str := firstn (b - a) (skipn a s).
(** s[-n:] for positive n *)
Definition last_n {A} (n : nat) (s : list A) : list A := skipn (List.length s - n) s.

Fixpoint prefixb (p s : str) : bool :=
  match p, s with
  | [], _ => true
  | x :: p', y :: s' => N.eqb x y && prefixb p' s'
  | _ :: _, [] => false
  end.
Definition startswith (s p : str) : bool := prefixb p s.
Definition endswith (s p : str) : bool := prefixb (rev p) (rev s).

(** s.find(p): [None] is Python's -1 *)
Fixpoint find_sub (p s : str) : option nat :=
  if prefixb p s then Some 0
  else match s with
       | [] => None
       | _ :: t => option_map S (find_sub p t)
       end.
(** s.find(p, i) *)
Definition find_from (p s : str) (i : nat) : option nat :=
  if List.length s <? i then None else option_map (Nat.add i) (find_sub p (skipn i s)).
Definition contains (p s : str) : bool :=
  match find_sub p s with Some _ => true | None => false end.

(** s.replace(old, new) for a non-empty [old] *)
Fixpoint replace_aux (old new s : str) (skip : nat) : str :=
  match s with
  | [] => []
  | c :: t =>
    match skip with
    | S k => replace_aux old new t k
    | O => if prefixb old s then new ++ replace_aux old new t (List.length old - 1)
           else c :: replace_aux old new t 0
    end
  end.
Definition replace (old new s : str) : str := replace_aux old new s 0.

(** s.split(c, 1) when c occurs in s *)
Fixpoint split1 (c : ch) (s : str) : option (str * str) :=
  match s with
  | [] => None
  | x :: t => if N.eqb x c then Some ([], t)
              else match split1 c t with Some (a, b) => Some (x :: a, b) | None => None end
  end.
(** s.rsplit(c, 1) when c occurs in s *)
Definition rsplit1 (c : ch) (s : str) : option (str * str) :=
  match split1 c (rev s) with Some (a, b) => Some (rev b, rev a) | None => None end.

(** ** Stripping *)
Fixpoint drop_while {A} (f : A -> bool) (s : list A) : list A :=
  match s with
  | [] => []
  | c :: t => if f c then drop_while f t else s
  end.
Definition lstrip_by (f : ch -> bool) (s : str) : str := drop_while f s.
Definition rstrip_by (f : ch -> bool) (s : str) : str := rev (drop_while f (rev s)).
Definition strip_by (f : ch -> bool) (s : str) : str := rstrip_by f (lstrip_by f s).
Definition lstrip (s : str) : str := lstrip_by is_space s.
Definition rstrip (s : str) : str := rstrip_by is_space s.
Definition strip (s : str) : str := strip_by is_space s.
(** s.strip(chars) etc. *)
Definition in_set (chars : str) (c : ch) : bool := mem_ch c chars.
Definition strip_chars (chars s : str) : str := strip_by (in_set chars) s.
Definition lstrip_chars (chars s : str) : str := lstrip_by (in_set chars) s.
Definition rstrip_chars (chars s : str) : str := rstrip_by (in_set chars) s.

Definition isspace (s : str) : bool :=
  match s with [] => false | _ => forallb is_space s end.
Definition isdigit (s : str) : bool :=
  match s with [] => false | _ => forallb is_isdigit s end.
Definition nonempty {A} (s : list A) : bool := match s with [] => false | _ => true end.

(** ** Numbers *)

(** CPython 3.11 refuses to convert more than 4300 digits
    ([sys.int_info.default_max_str_digits]). *)
Definition int_max_str_digits : N := 4300.

Fixpoint digits_value (acc : N) (s : str) : option N :=
  match s with
  | [] => Some acc
  | c :: t => match digit_value c with
              | Some d => digits_value (acc * 10 + d)%N t
              | None => None
              end
  end.
(** int(s), for strings without sign and underscore (the only callers pass text
    matched by [\d+] or satisfying [isdigit]); surrounding white space is accepted
    as in Python. *)
Definition int_of_str (s : str) : res N :=
  let s' := strip s in
  match s' with
  | [] => Err ValueError
  | _ => if (int_max_str_digits <? N.of_nat (List.length s'))%N then Err ValueError
         else match digits_value 0 s' with Some n => Ok n | None => Err ValueError end
  end.

(** str(n) *)
Fixpoint dec_digits (fuel : nat) (n : N) (acc : str) : str :=
  match fuel with
  | O => acc
  | S f => let q := (n / 10)%N in
           let acc' := (48 + n mod 10)%N :: acc in
           if N.eqb q 0 then acc' else dec_digits f q acc'
  end.
Definition str_of_N (n : N) : str := dec_digits (S (N.size_nat n)) n [].
(** "%0wd" % n *)
Definition pad_zero (w : nat) (n : N) : str :=
  let s := str_of_N n in repeat 48%N (w - List.length s) ++ s.

Definition spaces (n : nat) : str := repeat 32%N n.
Definition underscores (n : nat) : str := repeat 95%N n.

Fixpoint join (sep : str) (l : list str) : str :=
  match l with
  | [] => []
  | [x] => x
  | x :: t => x ++ sep ++ join sep t
  end.
