(** Parser for Python regular expression syntax (the subset used in refextract):
    [compile flags pattern] is re.compile. *)
From Coq Require Import List Arith NArith Bool String Lia.
From Verif Require Import PyStr Regex.
Import ListNotations.
Open Scope nat_scope.

Record flags := mkflags { f_verbose : bool; f_icase : bool }.
Definition noflags := mkflags false false.
Definition fI := mkflags false true.
Definition fX := mkflags true false.
Definition fXI := mkflags true true.

(** Parser state: next group number and the names seen so far. *)
Record pst := mkpst { p_next : nat; p_names : list (str * nat) }.

Definition hd_eq (c : N) (s : str) : bool := match s with x :: _ => N.eqb x c | [] => false end.

(** verbose mode: skip white space and comments *)
Fixpoint skip_ws (in_comment : bool) (s : str) : str :=
  match s with
  | [] => []
  | c :: t =>
    if in_comment then (if N.eqb c 10 then skip_ws false t else skip_ws true t)
    else if mem_ch c [32; 9; 10; 13; 11; 12]%N then skip_ws false t
    else if N.eqb c 35 then skip_ws true t
    else s
  end.
Definition skip (fl : flags) (s : str) : str := if f_verbose fl then skip_ws false s else s.

Definition lit (fl : flags) (c : N) : re := Cls (mkcls false (f_icase fl) [CRange c c]).
Definition cls1 (i : citem) : re := Cls (mkcls false false [i]).

(** escapes denoting a class of characters *)
Definition class_escape (c : N) : option citem :=
  if N.eqb c 115 then Some (CSpace true) else if N.eqb c 83 then Some (CSpace false)
  else if N.eqb c 100 then Some (CDigit true) else if N.eqb c 68 then Some (CDigit false)
  else if N.eqb c 119 then Some (CWord true) else if N.eqb c 87 then Some (CWord false)
  else None.
(** escapes denoting one character; [None]: unsupported or an error in Python *)
Definition char_escape (c : N) : option N :=
  if N.eqb c 110 then Some 10%N else if N.eqb c 116 then Some 9%N
  else if N.eqb c 114 then Some 13%N else if N.eqb c 102 then Some 12%N
  else if N.eqb c 118 then Some 11%N
  else if is_lower_ascii c || is_upper_ascii c || is_ascii_digit c then None
  else Some c.

(** one character or class escape inside [...] *)
Definition class_atom (s : str) : option (citem * str) :=
  match s with
  | [] => None
  | c :: t =>
    if N.eqb c 92 then
      match t with
      | [] => None
      | e :: t' => match class_escape e with
                   | Some i => Some (i, t')
                   | None => match char_escape e with
                             | Some d => Some (CRange d d, t')
                             | None => None
                             end
                   end
      end
    else Some (CRange c c, t)
  end.
Fixpoint parse_class (fuel : nat) (first : bool) (acc : list citem) (s : str)
  : option (list citem * str) :=
  match fuel with
  | O => None
  | S f =>
    match s with
    | [] => None
    | c :: t =>
      if N.eqb c 93 && negb first then Some (rev acc, t)
      else
        match class_atom s with
        | None => None
        | Some (i, s1) =>
          match i, s1 with
          | CRange lo _, d :: s2 =>
            if N.eqb d 45 && negb (hd_eq 93 s2)
            then match class_atom s2 with
                 | Some (CRange hi _, s3) =>
                   if (hi <? lo)%N then None
                   else parse_class f false (CRange lo hi :: acc) s3
                 | _ => None
                 end
            else parse_class f false (i :: acc) s1
          | _, _ => parse_class f false (i :: acc) s1
          end
        end
    end
  end.

Fixpoint take_digits (s : str) : str * str :=
  match s with
  | [] => ([], [])
  | c :: t => if is_ascii_digit c then let (a, b) := take_digits t in (c :: a, b) else ([], s)
  end.
Definition nat_of_digits (s : str) : option nat :=
  match s with
  | [] => None
  | _ => match digits_value 0 s with Some n => Some (N.to_nat n) | None => None end
  end.
(** {n}, {n,}, {,m}, {n,m}; [None]: the brace is a literal *)
Definition parse_braces (s : str) : option (nat * option nat * str) :=
  let (a, s1) := take_digits s in
  match s1 with
  | c :: s2 =>
    if N.eqb c 125 then match nat_of_digits a with Some n => Some (n, Some n, s2) | None => None end
    else if N.eqb c 44 then
      let (b, s3) := take_digits s2 in
      if hd_eq 125 s3
      then Some (match nat_of_digits a with Some n => n | None => 0 end, nat_of_digits b, skipn 1 s3)
      else None
    else None
  | [] => None
  end.
Definition quantifier (s : str) : option (nat * option nat * str) :=
  match s with
  | [] => None
  | c :: t =>
    if N.eqb c 42 then Some (0, None, t)
    else if N.eqb c 43 then Some (1, None, t)
    else if N.eqb c 63 then Some (0, Some 1, t)
    else if N.eqb c 123 then parse_braces t
    else None
  end.

Fixpoint take_until (c : N) (s : str) : option (str * str) :=
  match s with
  | [] => None
  | x :: t => if N.eqb x c then Some ([], t)
              else match take_until c t with Some (a, b) => Some (x :: a, b) | None => None end
  end.

(** width of a look-behind pattern *)
Fixpoint width (r : re) : option nat :=
  match r with
  | Eps | Look _ _ _ _ | Bos | Eos | Wordb | NWordb => Some 0
  | Cls _ | Any => Some 1
  | Cat a b => match width a, width b with Some x, Some y => Some (x + y) | _, _ => None end
  | Alt a b => match width a, width b with
               | Some x, Some y => if x =? y then Some x else None
               | _, _ => None
               end
  | Rep _ mn (Some mx) a => match width a with
                            | Some x => if mn =? mx then Some (mn * x) else None
                            | None => None
                            end
  | Rep _ _ None _ => None
  | Grp _ a => width a
  end.

Definition cat (a b : re) : re := match a, b with Eps, _ => b | _, Eps => a | _, _ => Cat a b end.

(** [what = 0]: alternation, [1]: sequence, [2]: one atom. *)
Fixpoint parse (fl : flags) (fuel : nat) (what : nat) (s : str) (p : pst) {struct fuel}
  : option (re * str * pst) :=
  match fuel with
  | O => None
  | S f =>
    match what with
    | 0 =>
      match parse fl f 1 s p with
      | None => None
      | Some (a, s1, p1) =>
        if hd_eq 124 s1
        then match parse fl f 0 (skipn 1 s1) p1 with
             | Some (b, s2, p2) => Some (Alt a b, s2, p2)
             | None => None
             end
        else Some (a, s1, p1)
      end
    | 1 =>
      let s := skip fl s in
      match s with
      | [] => Some (Eps, [], p)
      | c :: _ =>
        if N.eqb c 124 || N.eqb c 41 then Some (Eps, s, p)
        else
          match parse fl f 2 s p with
          | None => None
          | Some (a, s1, p1) =>
            let s1' := skip fl s1 in
            match quantifier s1' with
            | Some (mn, mx, s2) =>
              let lazy := hd_eq 63 s2 in
              let s3 := if lazy then skipn 1 s2 else s2 in
              match parse fl f 1 s3 p1 with
              | Some (b, s4, p4) => Some (cat (Rep (negb lazy) mn mx a) b, s4, p4)
              | None => None
              end
            | None =>
              match parse fl f 1 s1 p1 with
              | Some (b, s4, p4) => Some (cat a b, s4, p4)
              | None => None
              end
            end
          end
      end
    | _ =>
      match s with
      | [] => None
      | c :: t =>
        if N.eqb c 92 then                                        (* \ *)
          match t with
          | [] => None
          | e :: t' =>
            match class_escape e with
            | Some i => Some (cls1 i, t', p)
            | None =>
              if N.eqb e 98 then Some (Wordb, t', p)
              else if N.eqb e 66 then Some (NWordb, t', p)
              else match char_escape e with
                   | Some d => Some (lit fl d, t', p)
                   | None => None
                   end
            end
          end
        else if N.eqb c 46 then Some (Any, t, p)                   (* . *)
        else if N.eqb c 94 then Some (Bos, t, p)                   (* ^ *)
        else if N.eqb c 36 then Some (Eos, t, p)                   (* $ *)
        else if N.eqb c 91 then                                    (* [ *)
          let ng := hd_eq 94 t in
          let t' := if ng then skipn 1 t else t in
          match parse_class (S (List.length t')) true [] t' with
          | Some (l, s1) => Some (Cls (mkcls ng (f_icase fl) l), s1, p)
          | None => None
          end
        else if N.eqb c 40 then                                    (* ( *)
          let close := fun (r : option (re * str * pst)) (w : re -> option re) =>
            match r with
            | Some (a, s1, p1) =>
              if hd_eq 41 s1
              then match w a with Some b => Some (b, skipn 1 s1, p1) | None => None end
              else None
            | None => None
            end in
          let look := fun ahead ng a =>
            if (ahead : bool) then Some (Look true ng 0 a)
            else match width a with Some w => Some (Look false ng w a) | None => None end in
          if hd_eq 63 t then                                       (* (? *)
            let t1 := skipn 1 t in
            if startswith t1 (py ":") then close (parse fl f 0 (skipn 1 t1) p) Some
            else if startswith t1 (py "=") then close (parse fl f 0 (skipn 1 t1) p) (look true false)
            else if startswith t1 (py "!") then close (parse fl f 0 (skipn 1 t1) p) (look true true)
            else if startswith t1 (py "<=") then close (parse fl f 0 (skipn 2 t1) p) (look false false)
            else if startswith t1 (py "<!") then close (parse fl f 0 (skipn 2 t1) p) (look false true)
            else if startswith t1 (py "P<") then
              match take_until 62 (skipn 2 t1) with
              | None => None
              | Some (name, t2) =>
                match assoc_str name (p_names p) with
                | Some _ => None                                    (* redefinition *)
                | None =>
                  let n := p_next p in
                  close (parse fl f 0 t2 (mkpst (S n) ((name, n) :: p_names p)))
                        (fun a => Some (Grp n a))
                end
              end
            else None
          else
            let n := p_next p in
            close (parse fl f 0 t (mkpst (S n) (p_names p))) (fun a => Some (Grp n a))
        else if N.eqb c 42 || N.eqb c 43 || N.eqb c 63 then None    (* nothing to repeat *)
        else Some (lit fl c, t, p)
      end
    end
  end.

(** re.compile *)
Definition compile (fl : flags) (s : str) : res rx :=
  match parse fl (10 + 3 * List.length s) 0 s (mkpst 1 []) with
  | Some (r, [], p) => Ok (mkrx r (p_names p))
  | _ => Err ReError
  end.

(** Used with patterns that are proved to compile ([Patterns.v]). *)
Definition the_rx (r : res rx) : rx := match r with Ok p => p | Err _ => mkrx Eps [] end.
Definition compiles (r : res rx) : bool := match r with Ok _ => true | Err _ => false end.

(** re.escape(s) followed by inclusion in a pattern: the literal text. *)
Fixpoint re_lits (fl : flags) (s : str) : re :=
  match s with [] => Eps | [c] => lit fl c | c :: t => Cat (lit fl c) (re_lits fl t) end.
