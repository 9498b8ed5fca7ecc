(** A small environment with which the hypotheses of the theorems are shown to be met
    by concrete inputs, and the witnesses of the refutations are computed. *)
From Coq Require Import List Arith NArith Bool String.
From Verif Require Import PyStr Regex RegexParse Patterns AuthorPatterns Elements Record Transform Split Post ParseTagged
  DocText Tag Find RefText Kbs Pdf Engine Api.
Import ListNotations.
Open Scope nat_scope.

(** unidecode, unquote and replace_undesirable_characters leave ASCII text alone; the
    author patterns are those of the code *)
Definition demo_env : env := mkenv (fun s => s) (fun s => s) re_auth_real re_auth_near_miss_real 2026 (fun s => s).
(** no author is recognised (faster to evaluate) *)
Definition no_match : rx := mkrx (Cls (mkcls false false [])) [].
Definition plain_env : env := mkenv (fun s => s) (fun s => s) no_match no_match 2026 (fun s => s).
Definition demo_kbs : kbs :=
  mkkbs (build_journals_kb [(py "PHYS LETT", py "Phys.Lett."); (py "PHYS REV LETT", py "Phys.Rev.Lett.")])
        [] (mkrk [] []) [] [] [] [] [].
Definition demo_lines : list str :=
  [py "[1] A. Smith, Phys. Lett. B12 (1999) 34, doi:10.1000/abc";
   py "[2] doi:10.1000/xyz, Phys. Rev. Lett. 13 (2001) 5; Phys. Lett. A7 (2002) 8"]%string.
