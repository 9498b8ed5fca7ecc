(** What the name of a collaboration is, and what tagging the collaborations of a line means (C61). Nothing here refers to the
    patterns of the code or to the matcher; [case_variants d] are the characters that differ from d in case only. *)
From Coq Require Import List Arith NArith Bool String.
From Verif Require Import PyStr Regex.
Import ListNotations.
Local Open Scope nat_scope.
Local Notation length := List.length.

Definition whites (w : str) : Prop := forallb is_space w = true.
Definition one_of (l : string) (c : ch) : Prop := In c (py l).
(** the word in capitals, in small letters, or mixed *)
Definition in_any_case (word : string) (w : str) : Prop := Forall2 (fun c d => In c (case_variants d)) (py word) w.
(** the name in any case; a blank of the name stands for any white space *)
Definition spelled (X w : str) : Prop := Forall2 (fun c d => if N.eqb c 32 then is_space d = true else In c (case_variants d)) X w.

(** what may stand before the name and is taken away with it: at the start of the line, after what is no letter, digit or
    underscore, or else one of ( and double quote and [ and white space; then white space; then "the" or "and" with white space *)
Definition leads (a l : str) : Prop := exists s bl th, l = s ++ bl ++ th
  /\ ((s = [] /\ (a = [] \/ exists u c, a = u ++ [c] /\ is_word c = false)) \/ exists c, s = [c] /\ (one_of "(""[" c \/ is_space c = true))
  /\ whites bl
  /\ (th = [] \/ exists wd sp, th = wd ++ sp /\ (in_any_case "the" wd \/ in_any_case "and" wd) /\ whites sp /\ sp <> []).
(** the name with a white space behind it, then perhaps "coll", "coll.", "collaboration" or "collaborations" *)
Definition names (X g : str) : Prop := exists x sp t, g = x ++ [sp] ++ t /\ spelled X x /\ is_space sp = true
  /\ (t = [] \/ exists bl co e, t = bl ++ co ++ e /\ whites bl /\ in_any_case "coll" co
        /\ (e = [] \/ in_any_case "aboration" e \/ in_any_case "aborations" e \/ e = py ".")).
Definition ends (b : str) : Prop := b = [] \/ exists c t, b = c :: t /\ (one_of "><])"".,:" c \/ is_space c = true).
(** w, between a and b, names the collaboration *)
Definition collab_text (X a w b : str) : Prop := exists l g, w = l ++ g /\ leads a l /\ names X g /\ ends b.
(** v is g without the blanks, points, commas, colons, semicolons, dashes and brackets at its ends *)
Definition trimmed (g v : str) : Prop := exists p q, g = p ++ v ++ q /\ Forall (one_of ".,:;- [](){}") (p ++ q)
  /\ match v with c :: _ => ~ one_of ".,:;- [](){}" c | [] => True end /\ match rev v with c :: _ => ~ one_of ".,:;- [](){}" c | [] => True end.
(** what is put for it: the longest form of the name that fits, between tags *)
Definition collab_put (X a w b v : str) : Prop := exists l g t, w = l ++ g /\ leads a l /\ names X g /\ ends b
  /\ (forall g' b', g ++ b = g' ++ b' -> names X g' -> ends b' -> length g' <= length g)
  /\ trimmed g t /\ v = py "<cds.COLLABORATION>" ++ t ++ py "</cds.COLLABORATION>".

(** out is the line with some texts replaced, from the left to the right. They are found in another text of the same length, the
    masked line. [R a w b v]: w, between a and b in the masked line, is replaced by v. In what is kept no text with [P] begins *)
Inductive replaced (P : str -> str -> str -> Prop) (R : str -> str -> str -> str -> Prop) : str -> str -> str -> str -> Prop :=
| replaced_end a s l : length s = length l -> (forall p w q, s = p ++ w ++ q -> ~ P (a ++ p) w q) -> replaced P R a s l l
| replaced_step a k w b kl wl bl v t : length k = length kl -> length w = length wl -> length b = length bl ->
    (forall p q w' b', k = p ++ q -> q <> [] -> q ++ w ++ b = w' ++ b' -> ~ P (a ++ p) w' b') ->
    R (a ++ k) w b v -> replaced P R (a ++ k ++ w) b bl t -> replaced P R a (k ++ w ++ b) (kl ++ wl ++ bl) (kl ++ v ++ t).
