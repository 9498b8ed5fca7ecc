(** * C39: books found in the miscellaneous text *)
From Coq Require Import List Arith NArith Bool String Lia.
From Verif Require Import PyStr ListFacts Elements Record Regex RegexParse Patterns DocText Tag Kbs Post Engine Api Demo PropsEngine BookProofs.
Import ListNotations.
Local Open Scope list_scope.
Local Notation length := List.length.

(** ** C39 *)
(** [key s] are the letters A-Z and digits of the upper-case text; [one_to_one s]: upper-casing no character of [s] gives
    several ones.  The text from the found place on, [body], has exactly the key of the title, begins and ends with a letter
    or digit, and no occurrence begins earlier; cutting removes [body] and what follows up to the next space, opening bracket,
    letter or digit, and strips both sides. *)
Theorem C39_found : forall s title, one_to_one s -> key title <> [] ->
  match find_substring_ignore_special_chars s title with
  | Some i => exists pre body post junk rest, s = pre ++ body ++ post /\ length pre = i /\ key body = key title
      /\ (exists c m, body = c :: m /\ key [c] <> []) /\ (exists m c, body = m ++ [c] /\ key [c] <> [])
      /\ (forall p b q, s = p ++ b ++ q -> key b = key title -> length (key pre) <= length (key p))
      /\ post = junk ++ rest /\ forallb (fun c => negb (goes_on c)) junk = true /\ (rest = [] \/ exists c r, rest = c :: r /\ goes_on c = true)
      /\ cut_substring_with_special_chars s title i = Ok (Some (strip pre ++ py " " ++ strip rest))
  | None => forall p b q, s = p ++ b ++ q -> key b <> key title
  end.
Proof. exact book_spec. Qed.
Print Assumptions C39_found.
Example C39_case : one_to_one (py "J. Doe, 'A Book, of: Fields', 1990") /\ key (py "a book of fields") <> []
  /\ find_substring_ignore_special_chars (py "J. Doe, 'A Book, of: Fields', 1990") (py "a book of fields") = Some 9
  /\ cut_substring_with_special_chars (py "J. Doe, 'A Book, of: Fields', 1990") (py "a book of fields") 9 = Ok (Some (py "J. Doe, ' 1990")).
Proof.
  split; [|vm_compute; repeat split; discriminate]. intros c H. cbn in H. repeat (destruct H as [<-|H]; [vm_compute; reflexivity|]). contradiction.
Qed.

(** One expects this of every text and title, but two things go wrong.  A character that upper-cases to two ones, as the
    sharp s, shifts the place: the title is cut one letter too late and its first letter stays in the text. *)
Definition book_by (name : str) : str := py "[1] J. Wei" ++ name ++ py ", A Book of Fields, 1990, p. 5".
Theorem C39_shift_refuted :
  option_map (map (fun r => (fget Ftitle r, fget Fmisc r))) (refs_of plain_env book_kbs default_format [book_by (py "ss")])
    = Some [(Some [py "A Book of Fields"], Some [py "J. Weiss, p. 5"])]
  /\ option_map (map (fun r => (fget Ftitle r, fget Fmisc r))) (refs_of plain_env book_kbs default_format [book_by [223%N]])
    = Some [(Some [py "A Book of Fields"], Some [py "J. Wei" ++ 223%N :: py ", A p. 5"])].
Proof. split; vm_compute; reflexivity. Qed.
Print Assumptions C39_shift_refuted.
(** A title without any letter A-Z or digit (a Greek one, say) is found at once in every text, and when the year agrees,
    the whole extraction stops with an exception. *)
Definition greek_kbs : kbs :=
  mkkbs (k_journals demo_kbs) [] (mkrk [] []) [] [] [] [([934;933;931]%N, [py "J. Doe"; [934;965;963]%N; py "1990"])] [].
Theorem C39_empty_refuted :
  parse_references plain_env greek_kbs None default_format [book_by (py "ss")] = Err IndexError
  /\ exists r, parse_references plain_env book_kbs None default_format [book_by (py "ss")] = Ok r.
Proof. split; [vm_compute; reflexivity|eexists; vm_compute; reflexivity]. Qed.
Print Assumptions C39_empty_refuted.
