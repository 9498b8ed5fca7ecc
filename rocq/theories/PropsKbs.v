(** C30-C32: knowledge bases. *)
From Coq Require Import List Arith NArith Bool String Permutation Sorting.
From Verif Require Import PyStr ListFacts RecordProofs Regex RegexParse RegexMeta RegexLang Patterns Elements Record Transform Split Post ParseTagged
  DocText Tag RefText Kbs Engine Session SessionProofs KbProofs Demo.
Import ListNotations.
Local Notation length := List.length.

(** ** C30 *)
Theorem C30_history_independent :
  forall (S : Type) (eqb : S -> S -> bool) (truthy : S -> bool) (load : kbtype -> S -> res loaded) (default : kbtype -> S)
    (equal_sources_load_alike : forall t s s', eqb s s' = true -> load t s = load t s')
    (R : list (str * str)) (s : S) (history : list call) (c : call),
  load Tjournals_re s = Ok (Ljournals_re R) ->
  Forall (fun c => effective truthy default (c_custom c) Tjournals_re = s
                   /\ forall t, exists l, load t (effective truthy default (c_custom c) t) = Ok l) history ->
  effective truthy default (c_custom c) Tjournals_re = s ->
  snd (run_call eqb truthy load default c (run_calls eqb truthy load default history cache0))
  = snd (run_call eqb truthy load default c cache0).
Proof.
  intros S eqb truthy load default H R s cs c LR F A. apply (history_independent eqb truthy load default H R s cs c LR); auto.
  eapply Forall_impl; [|exact F]. cbn. intros x (X & Y). split; auto. now apply loads_iff.
Qed.
Print Assumptions C30_history_independent.
(** Sources as in [Kbs.v], compared structurally; all files are empty, one is missing. *)
Definition strs_eqb (a b : list str) : bool := (Nat.eqb (length a) (length b)) && forallb (fun p => eqs (fst p) (snd p)) (combine a b).
Definition source_eqb (a b : source) : bool :=
  match a, b with
  | Path p, Path q => eqs p q
  | Lines p, Lines q => strs_eqb p q
  | Pairs p, Pairs q => strs_eqb (map fst p) (map fst q) && strs_eqb (map snd p) (map snd q)
  | Rows p, Rows q => Nat.eqb (length p) (length q) && forallb (fun e => strs_eqb (fst e) (snd e)) (combine p q)
  | _, _ => false
  end.
Lemma source_eqb_eq a b : source_eqb a b = true -> a = b.
Proof.
  destruct a as [p|p|p|p], b as [q|q|q|q]; cbn; try discriminate.
  - destruct (eqs_spec p q); congruence.
  - intros H. apply andb_true_iff in H as [A B]. apply strs_eqb_eq in A, B. f_equal.
    revert q A B. induction p as [|[x y] p IH]; intros [|[x' y'] q]; cbn; try discriminate; auto. intros A B.
    injection A as -> A. injection B as -> B. f_equal. auto.
  - intros H. apply strs_eqb_eq in H. congruence.
  - intros H. f_equal. revert q H. induction p as [|x p IH]; intros [|y q]; cbn; auto; try discriminate.
    intros H. apply andb_true_iff in H as [L H]. apply andb_true_iff in H as [A H]. apply strs_eqb_eq in A. f_equal; auto. apply IH. now rewrite L, H.
Qed.
Definition source_truthy (s : source) : bool :=
  match s with Path p => nonempty p | Pairs l => nonempty l | Lines l => nonempty l | Rows l => nonempty l end.
Definition demo_files : files := mkfiles (fun p => if eqs p (py "missing") then Err OSError else Ok []) (fun _ => Ok []).
Definition demo_default (t : kbtype) : source :=
  match t with
  | Tjournals => Pairs [(py "DAN", py "Dokl.Akad.Nauk")]
  | Tcollabs | Tpublishers => Pairs []
  | Tbooks => Rows []
  | _ => Lines []
  end%string.
Definition demo_call (custom : kbtype -> option source) : call :=
  mkcall custom plain_env None default_format [py "[1] DAN 12 (2000) 34"%string].
Definition for_kb (t : kbtype) (s : source) : kbtype -> option source := fun t' => if kbtype_eqb t t' then Some s else None.
Definition default_call := demo_call (fun _ => None).
Definition journals_call := demo_call (for_kb Tjournals (Pairs [(py "DAN"%string, py "Other"%string)])).
Definition demo_run := run_call source_eqb source_truthy (load_kb_by_type demo_files) demo_default.
Definition demo_history (cs : list call) := run_calls source_eqb source_truthy (load_kb_by_type demo_files) demo_default cs cache0.
(** titles of the journals of the references returned by [c] after the calls [cs] *)
Definition result_after (cs : list call) (c : call) : res (list (option (list str))) :=
  let* r := snd (demo_run c (demo_history cs)) in Ok (map (fget Fjournal_title) (fst r)).
Lemma source_eqb_load : forall t s s', source_eqb s s' = true -> load_kb_by_type demo_files t s = load_kb_by_type demo_files t s'.
Proof. intros t s s' H. apply source_eqb_eq in H. now subst. Qed.
Example C30_case :
  Forall (fun c => effective source_truthy demo_default (c_custom c) Tjournals_re = Lines []
                   /\ forall t, exists l, load_kb_by_type demo_files t (effective source_truthy demo_default (c_custom c) t) = Ok l)
    [default_call; journals_call; default_call]
  /\ result_after [default_call; journals_call; default_call] journals_call = Ok [Some [py "Other"%string]]
  /\ result_after [default_call; journals_call; default_call] default_call = Ok [Some [py "Dokl.Akad.Nauk"%string]].
Proof.
  split; [|vm_compute; split; reflexivity].
  repeat (constructor; [split; [reflexivity|intros []; eexists; vm_compute; reflexivity]|]). constructor.
Qed.
(** A load that fails leaves its input recorded with the result of an earlier load: the
    same request then succeeds with the wrong journals, or fails with another exception. *)
Definition missing_call := demo_call (for_kb Tjournals (Path (py "missing"%string))).
Theorem C30_failed_load_refuted : exists history c,
  result_after [] c = Err OSError
  /\ result_after history c = Ok [Some [py "Dokl.Akad.Nauk"%string]]
  /\ result_after [c] c = Err KeyError.
Proof. exists [default_call; missing_call], missing_call. vm_compute. repeat split. Qed.
Print Assumptions C30_failed_load_refuted.
(** A call with its own journals_re knowledge base changes the titles of all later calls. *)
Definition titles_call := demo_call (for_kb Tjournals_re (Lines [py "DAN---Nonsense"%string])).
Theorem C30_custom_titles_stay_refuted : exists earlier c,
  c_custom c = (fun _ => None)
  /\ result_after [] c = Ok [Some [py "Dokl.Akad.Nauk"%string]]
  /\ result_after [earlier] c = Ok [Some [py "Nonsense"%string]].
Proof. exists titles_call, default_call. vm_compute. repeat split. Qed.
Print Assumptions C30_custom_titles_stay_refuted.
(** A knowledge base file that changes on disk between two calls is not read again. *)
Definition file_with (title : str) : files := mkfiles (fun _ => Ok [py "DAN---"%string ++ title]) (fun _ => Ok []).
Definition file_call := demo_call (for_kb Tjournals (Path (py "journals.kb"%string))).
Theorem C30_changed_file_refuted : exists F1 F2 c,
  let run F := run_call source_eqb source_truthy (load_kb_by_type F) demo_default in
  let titles r := (let* x := r in Ok (map (fget Fjournal_title) (fst x))) in
  titles (snd (run F2 c cache0)) = Ok [Some [py "New"%string]]
  /\ titles (snd (run F2 c (fst (run F1 c cache0)))) = Ok [Some [py "Old"%string]].
Proof. exists (file_with (py "Old"%string)), (file_with (py "New"%string)), file_call. vm_compute. split; reflexivity. Qed.
Print Assumptions C30_changed_file_refuted.

(** ** C31 *)
Theorem C31_phrases : forall rows phrase,
  In phrase (jk_keys (build_journals_kb rows)) <->
  exists row, In row rows /\ (phrase = seek_phrase (fst row) \/ phrase = repl_phrase (snd row)).
Proof. exact journals_keys. Qed.
Print Assumptions C31_phrases.
Theorem C31_longest_first : forall rows, StronglySorted (fun a b => length b <= length a) (jk_keys (build_journals_kb rows)).
Proof. intros rows. apply (sort_by_sorted (@List.length N)). Qed.
Print Assumptions C31_longest_first.
(** the search phrase of a row that no later row repeats *)
Theorem C31_search_phrase : forall before row after,
  let rows := before ++ row :: after in
  let phrase := seek_phrase (fst row) in
  (forall later, In later after -> seek_phrase (fst later) <> phrase) ->
  assoc_str phrase (jk_std (build_journals_kb rows)) = Some (snd row)
  /\ exists pattern, assoc_str phrase (jk_search (build_journals_kb rows)) = Some pattern
     /\ forall text, (exists o, re_search pattern text = Some o) <->
          exists a c b, text = a ++ phrase ++ c :: b /\ is_word c = false /\ hd_is_word (rev a) = false.
Proof. exact journals_seek. Qed.
Print Assumptions C31_search_phrase.
(** the standard title of a row, when no search phrase is the same and no earlier row has it *)
Theorem C31_standard_title : forall before row after,
  let rows := before ++ row :: after in
  let phrase := repl_phrase (snd row) in
  (forall other, In other rows -> seek_phrase (fst other) <> phrase) ->
  (forall earlier, In earlier before -> repl_phrase (snd earlier) <> phrase) ->
  assoc_str phrase (jk_std (build_journals_kb rows)) = Some (snd row)
  /\ exists pattern, assoc_str phrase (jk_search (build_journals_kb rows)) = Some pattern
     /\ forall text, (exists o, re_search pattern text = Some o) <->
          exists a c b, text = a ++ phrase ++ c :: b
            /\ ~ (65 <= c <= 90 \/ 48 <= c <= 57)%N
            /\ hd_is_word (rev a) <> hd_is_word (phrase ++ c :: b)
            /\ (forall a', a <> a' ++ [47%N]).
Proof. exact journals_repl. Qed.
Print Assumptions C31_standard_title.
Definition demo_rows : list (str * str) :=
  [(py "PHYS.LETT", py "Phys.Lett."); (py "PHYS REV", py "Phys.Rev."); (py "PHYS LETT", py "Phys.Lett.B")]%string.
Example C31_case :
  jk_keys (build_journals_kb demo_rows) = [py "PHYS LETT B"; py "PHYS LETT"; py "PHYS LETT"; py "PHYS REV"]%string
  /\ assoc_str (py "PHYS LETT"%string) (jk_std (build_journals_kb demo_rows)) = Some (py "Phys.Lett.B"%string)
  /\ assoc_str (py "PHYS LETT B"%string) (jk_std (build_journals_kb demo_rows)) = Some (py "Phys.Lett.B"%string)
  /\ (forall later : str * str, In later [] -> seek_phrase (fst later) <> seek_phrase (py "PHYS LETT"%string))
  /\ (forall other, In other demo_rows -> seek_phrase (fst other) <> repl_phrase (py "Phys.Lett.B"%string)).
Proof.
  split; [vm_compute; reflexivity|]. split; [vm_compute; reflexivity|]. split; [vm_compute; reflexivity|]. split; [easy|].
  intros other I. repeat (destruct I as [<-|I]; [vm_compute; discriminate|]). destruct I.
Qed.
(** One expects a standard title to stand for itself; another row can take it over. *)
Theorem C31_title_stands_for_itself_refuted : exists rows row, In row rows /\
  exists other, other <> snd row /\ assoc_str (repl_phrase (snd row)) (jk_std (build_journals_kb rows)) = Some other.
Proof.
  exists [(py "A", py "Phys.Lett"); (py "Phys.Lett", py "Other")]%string, (py "A"%string, py "Phys.Lett"%string). split; [now left|].
  exists (py "Other"%string). split; [discriminate|vm_compute; reflexivity].
Qed.
Print Assumptions C31_title_stands_for_itself_refuted.

(** ** C32 *)
Theorem C32_stable_by_length : forall patterns,
  let ordered := map snd (order_reportnum_patterns_bylen patterns) in
  Permutation ordered patterns
  /\ StronglySorted (fun p q => base_len q <= base_len p) ordered
  /\ (forall n, filter (fun p => Nat.eqb (base_len p) n) ordered = filter (fun p => Nat.eqb (base_len p) n) patterns)
  /\ Forall (fun e => fst e = base_len (snd e)) (order_reportnum_patterns_bylen patterns).
Proof. exact reportnum_order. Qed.
Print Assumptions C32_stable_by_length.
Theorem C32_length_without_classes : forall p, ~ In 91%N p -> base_len p = length p.
Proof. exact base_len_plain. Qed.
Print Assumptions C32_length_without_classes.
Example C32_case :
  map snd (order_reportnum_patterns_bylen [py "9999"; py "yy-999"; py "[ABCDEFG]99"; py "aa-999"; py "yymm999"]%string)
  = [py "yymm999"; py "yy-999"; py "aa-999"; py "9999"; py "[ABCDEFG]99"]%string.
Proof. vm_compute. reflexivity. Qed.
