(** Calls of parse_references (engine.py 1500-1522) one after the other in one process:
    get_kbs (kbs.py 55-70) returns its cache itself, and tag_reference_line (tag.py 123-124)
    updates the table of standard titles in it.  The file system is the same during
    the session, and the sources passed are not changed by the caller. *)
From Coq Require Import List Arith NArith Bool String.
From Verif Require Import PyStr Elements Record Transform Split Post ParseTagged RefText Tag Engine Kbs.
Import ListNotations.

Section Session.
Context {S : Type} (eqb : S -> S -> bool) (truthy : S -> bool) (load : kbtype -> S -> res loaded) (default : kbtype -> S).
(** The entries of the dictionary.  A missing entry raises KeyError where it is used; the
    model asks for all of them at once. *)
Definition kbs_of (d : kbtype -> option loaded) : res kbs :=
  match d Tjournals, d Tjournals_re, d Treports, d Tpublishers, d Tauthors, d Tcollabs, d Tbooks, d Tspecial with
  | Some (Ljournals a), Some (Ljournals_re b), Some (Lreports c), Some (Lpublishers d), Some (Lauthors e),
    Some (Lcollabs f), Some (Lbooks g), Some (Lspecial h) => Ok (mkkbs a b c d e f g h)
  | _, _, _, _, _, _, _, _ => Err KeyError
  end.
Record call := mkcall { c_custom : kbtype -> option S; c_env : env; c_cb : option callback; c_format : template; c_lines : list str }.
(** the update is reached when the marker of the first line has been removed *)
Definition tagging_reached (c : call) : bool :=
  match c_lines c with
  | [] => false
  | raw :: _ => match remove_reference_line_marker (wash_and_repair_reference_line (c_env c) raw) with Ok _ => true | Err _ => false end
  end.
Definition update_titles (K : kbs) (ca : @cache S loaded) : @cache S loaded :=
  mkcache (ca_inputs ca)
    (upd (ca_loaded ca) Tjournals
       (Ljournals (mkjk (jk_search (k_journals K)) (supdate (jk_std (k_journals K)) (k_journals_re K)) (jk_keys (k_journals K))))).
Definition run_call (c : call) (ca : @cache S loaded) : @cache S loaded * res (list ref * list nat) :=
  match get_kbs eqb truthy load default (c_custom c) ca with
  | (ca1, Err e) => (ca1, Err e)
  | (ca1, Ok d) =>
    match kbs_of d with
    | Err e => (ca1, Err e)
    | Ok K => (if tagging_reached c then update_titles K ca1 else ca1,
               parse_references (c_env c) K (c_cb c) (c_format c) (c_lines c))
    end
  end.
Definition run_calls (cs : list call) (ca : @cache S loaded) : @cache S loaded :=
  fold_left (fun ca c => fst (run_call c ca)) cs ca.
End Session.
