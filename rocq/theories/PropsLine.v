(** Properties C44 and following: what tagging and the later stages do to the text of a line. *)
From Coq Require Import List Arith NArith Bool String Lia.
From Verif Require Import PyStr ListFacts Regex Patterns Elements Record Numeration Transform Post Tag RefText Kbs Engine Api Demo
  RebuildProofs AuthorProofs PropsCrash RecordProofs DocText UrlProofs YearProofs DropYear Split SplitProofs PostProofs IbidProofs OneLine.
Import ListNotations.
Local Open Scope nat_scope.
Local Notation length := List.length.

(** ** C44 *)
(** [rebuilds] says item by item which text is removed and what is put for it; [items_of] are the recognised texts with
    their places in the line *)
Theorem C44_rebuilt_line : forall line M std pk todo out, rebuild_loop line M std pk todo 0 None = Ok out ->
  exists its, items_of M std pk todo = Some its /\ rebuilds its 0 None line out.
Proof. intros line M std pk todo out H. exact (rebuild_ok line M std pk todo 0 None out H). Qed.
Print Assumptions C44_rebuilt_line.
Definition c44_line : str := py "A. Smith, Phys. Lett.: B12 (1999) 34, ibid. 13 (2000) 5, [CERN TH 98 12], North Holland; Nucl. Phys. and others".
Definition c44_matches : lmatches :=
  mklm [(8, py "PHYS LETT"); (32, py "IBID"); (77, py "NUCL PHYS")] [(47, 15)] [(47, py "CERN-TH-98-12")] [(63, py "NORTH HOLLAND")]
    [(1, 1); (8, 1); (14, 1); (26, 1); (32, 1); (36, 1); (42, 1); (46, 1); (52, 1); (55, 1); (72, 1); (87, 1); (93, 1); (99, 1)].
Definition c44_types := get_replacement_types (ikeys (lm_journals c44_matches)) (ikeys (lm_reprepl c44_matches)) (ikeys (lm_publishers c44_matches)).
(** no item begins inside the text of an earlier one *)
Example C44_case :
  rebuild_loop c44_line c44_matches (jk_std (k_journals (rich_kbs []))) (k_publishers (rich_kbs [])) c44_types 0 None
  = Ok (py "A. Smith, <cds.JOURNAL>Phys.Lett.</cds.JOURNAL> <cds.VOL>B12</cds.VOL> <cds.YR>(1999)</cds.YR> <cds.PG>34</cds.PG>,  <cds.JOURNALibid>Phys.Lett.</cds.JOURNALibid> <cds.VOL>B13</cds.VOL> <cds.YR>(2000)</cds.YR> <cds.PG>5</cds.PG>,<cds.REPORTNUMBER>CERN-TH-98-12</cds.REPORTNUMBER>, <cds.PUBLISHER>North-Holland</cds.PUBLISHER>; Nucl. Phys. and others")
  /\ items_of c44_matches (jk_std (k_journals (rich_kbs []))) (k_publishers (rich_kbs [])) c44_types
     = Some [(10, Title 10 (py "Phys.Lett.") None); (38, Ibid 4); (57, Report 15 (py "CERN-TH-98-12")); (74, Publisher 13 (py "North-Holland")); (89, Title 10 (py "Nucl.Phys.") None)].
Proof. split; vm_compute; reflexivity. Qed.
(** One expects every part of the line to be used once.  False of the code: a title inside the numeration of another one
    is tagged as well, and the numeration is used again. *)
Theorem C44_used_once_refuted :
  exists rows t std, tag_reference_line plain_env (py "Phys. Lett. B 12 (1999) 34.") (mkkbs (build_journals_kb rows) [] (mkrk [] []) [] [] [] [] []) []
  = Ok (py "<cds.JOURNAL>Phys.Lett.</cds.JOURNAL> <cds.VOL>B12</cds.VOL> <cds.YR>(1999)</cds.YR> <cds.PG>34</cds.PG><cds.JOURNAL>Bulletin</cds.JOURNAL> <cds.VOL>12</cds.VOL> <cds.YR>(1999)</cds.YR> <cds.PG>34</cds.PG>.", t, std).
Proof. exists [(py "PHYS LETT", py "Phys.Lett."); (py "B", py "Bulletin")]. eexists. eexists. vm_compute. reflexivity. Qed.
Print Assumptions C44_used_once_refuted.

(** the tagged line is one line, whatever the line and the knowledge bases contain *)
Theorem C44_one_line : forall E line K titles t ti std, tag_reference_line E line K titles = Ok (t, ti, std) -> ~ In 10%N t.
Proof. exact one_line. Qed.
Print Assumptions C44_one_line.
(** here the line end comes from the standard title *)
Example C44_one_line_case : exists ti std,
  tag_reference_line plain_env (py "see Phys. Lett. B 12 (1999) 34.") (mkkbs (build_journals_kb [(py "PHYS LETT", py "Phys." ++ [10%N] ++ py "Lett.")]) [] (mkrk [] []) [] [] [] [] []) []
  = Ok (py "see <cds.JOURNAL>Phys.Lett.</cds.JOURNAL> <cds.VOL>B12</cds.VOL> <cds.YR>(1999)</cds.YR> <cds.PG>34</cds.PG>.", ti, std).
Proof. eexists. eexists. vm_compute. reflexivity. Qed.

(** ** C45 *)
(** [src] is the line after the authors knowledge base, in ASCII if that gives more matches; [picks] are the matches
    without underscores and [authors_tagged] says for each of them what is put for its text; the rest of the line is kept *)
Theorem C45_authors_tagged : forall E line kb out, identify_and_tag_authors E line kb = Ok out ->
  let o := fold_left (fun l e => replace (fst e) (snd e) l) kb line in
  let found s := re_finditer (rx_re (re_auth E)) (strip_tags s) in
  let src := if length (found o) <? length (found (unidecode E o)) then unidecode E o else o in
  length (strip_tags src) = length src ->
  exists ps, picks (re_auth E) (strip_tags src) (strip_tags o) 0 (found src) ps /\ authors_tagged (re_auth_near_miss E) 0 ps src out.
Proof. exact authors_ok. Qed.
Print Assumptions C45_authors_tagged.
(** the text of a group is its normalised form without punctuation at the ends and without stray brackets *)
Theorem C45_author_text : forall s, exists pre post,
  sub_text re_etal_ci (py "et al.") (sub_text re_ed_notation_ci (py "(ed.)") s) = pre ++ author_text s ++ post
  /\ in_chars (py ".,:;- []()") pre /\ in_chars (py ",:;- []()") post
  /\ (endswith (author_text s) (py "(ed.)") = false -> ~ starts_in (py ")") (author_text s) /\ ~ ends_in (py ")") (author_text s)).
Proof. exact author_text_ok. Qed.
Print Assumptions C45_author_text.
Definition c45_line : str := py "eds. J. Smith and A. Jones, North Holland; (C. Brown), K. Zum et al., <cds.JOURNAL>Nucl.Phys.</cds.JOURNAL>".
Example C45_case :
  identify_and_tag_authors demo_env c45_line [(py "Zum", py "Zumino")]
  = Ok (py "<cds.AUTHincl>J. Smith and A. Jones (eds.)</cds.AUTHincl>, North Holland; <cds.AUTHstnd>C. Brown</cds.AUTHstnd>,<cds.AUTHetal>K. Zumino et al.</cds.AUTHetal> <cds.JOURNAL>Nucl.Phys.</cds.JOURNAL>")
  /\ let src := fold_left (fun l e => replace (fst e) (snd e) l) [(py "Zum", py "Zumino")] c45_line in
     length (strip_tags src) = length src /\ length (re_finditer (rx_re (re_auth demo_env)) (strip_tags src)) = 3.
Proof. split; [|split]; vm_compute; reflexivity. Qed.
Example C45_text_case : author_text (py ".(A. Jones and B. Brown ET AL)), ") = py "A. Jones and B. Brown et al.".
Proof. vm_compute. reflexivity. Qed.
(** One expects the text around the groups to stay.  False of the code: a semicolon after a group is written twice. *)
Theorem C45_semicolon_refuted :
  identify_and_tag_authors demo_env (py "J. Smith; A. Jones et al, title") []
  = Ok (py "<cds.AUTHstnd>J. Smith</cds.AUTHstnd>;;<cds.AUTHetal>A. Jones et al.</cds.AUTHetal> title").
Proof. vm_compute. reflexivity. Qed.
Print Assumptions C45_semicolon_refuted.
(** One expects an author missed before an "and" to be found by the weaker pattern.  False of the code: its end anchor is
    followed by a check that more text follows, so no name with its initials first is found, and the author after the
    "and" is lost as well. *)
Theorem C45_missed_author_refuted :
  identify_and_tag_authors demo_env (py "A. smith and B. Brown, title") [] = Ok (py "A. smith and B. Brown, title")
  /\ identify_and_tag_authors demo_env (py "B. Brown, title") [] = Ok (py "<cds.AUTHstnd>B. Brown</cds.AUTHstnd>, title").
Proof. split; vm_compute; reflexivity. Qed.
Print Assumptions C45_missed_author_refuted.

(** ** C46 *)
(** three passes: years in square brackets, in round brackets and bare ones are dropped, with the white space around them;
    of the text, no such piece is left, and nothing else is dropped *)
Theorem C46_removed : forall s y, y <> [] -> exists s1 s2,
  dropped (year_piece (Some 91%N) (Some 93%N) y) any_text s s1 /\ dropped (year_piece (Some 40%N) (Some 41%N) y) any_text s1 s2
  /\ dropped (year_piece None None y) no_blank_first s2 (remove_year s y).
Proof. exact remove_year_ok. Qed.
Print Assumptions C46_removed.
Theorem C46_absent : forall y s, y <> [] -> ~ occurs y s -> remove_year s y = s.
Proof. exact remove_none. Qed.
Print Assumptions C46_absent.
Theorem C46_once : forall y a b, y <> [] -> once y a b -> (forall a' s1 s2 b', blanks s1 -> blanks s2 ->
    (a = a' ++ 91%N :: s1 -> b <> s2 ++ 93%N :: b') /\ (a = a' ++ 40%N :: s1 -> b <> s2 ++ 41%N :: b')) ->
  remove_year (a ++ y ++ b) y = rstrip a ++ lstrip b.
Proof. exact remove_once. Qed.
Print Assumptions C46_once.
Theorem C46_bracketed : forall y a b o c s1 s2, y <> [] -> In (o, c) [(91, 93); (40, 41)]%N -> blanks s1 -> blanks s2 ->
  once y (a ++ o :: s1) (s2 ++ c :: b) -> ~ occurs y (a ++ b) -> remove_year (a ++ o :: s1 ++ y ++ s2 ++ c :: b) y = a ++ b.
Proof. exact remove_bracketed. Qed.
Print Assumptions C46_bracketed.
(** the year of a citation is taken out of the texts of all its elements and put in an element of its own *)
Theorem C46_taken_out : forall h c h' c', closed h c -> NoDup c -> add_year_one h c = Ok (h', c') ->
  exists ys, chosen_year (map (deref h) c) ys
  /\ map (deref h') c' = map (fun e => match ys with y :: _ => set_misc (remove_year (e_misc e) y) e | [] => e end) (map (deref h) c) ++ map (fun y => year_el y) ys.
Proof. exact year_taken_out. Qed.
Print Assumptions C46_taken_out.
Lemma once_by_length y a b : (forall p, In p (map (fun n => firstn n (a ++ y ++ b)) (seq 0 (S (length (a ++ y ++ b))))) -> prefixb y (skipn (length p) (a ++ y ++ b)) = true -> p = a) -> once y a b.
Proof.
  intros H p q E. apply H.
  - apply in_map_iff. exists (length p). split; [rewrite E, firstn_app, firstn_all, Nat.sub_diag; cbn; apply app_nil_r|]. apply in_seq. rewrite E, app_length. lia.
  - rewrite E, skipn_app, skipn_all, Nat.sub_diag. cbn [app skipn]. clear. induction y as [|c y IH]; [reflexivity|]. cbn [app prefixb]. now rewrite N.eqb_refl.
Qed.
Ltac once_case := apply once_by_length; intros p I; cbn in I; repeat (destruct I as [<-|I]); try reflexivity; try discriminate; destruct I.
Example C46_once_case : once (py "2005") (py "in ") (py " by them") /\ remove_year (py "in 2005 by them") (py "2005") = py "inby them".
Proof. split; [once_case|vm_compute; reflexivity]. Qed.
Example C46_bracketed_case : once (py "2005") (py "J. Math. ( ") (py " ), 7") /\ ~ occurs (py "2005") (py "J. Math. , 7")
  /\ remove_year (py "J. Math. ( 2005 ), 7") (py "2005") = py "J. Math. , 7".
Proof.
  split; [once_case|]. split; [|vm_compute; reflexivity]. intros (p & q & E). apply (find_sub_none (py "2005") (py "J. Math. , 7")) in E; auto.
Qed.
Definition c46_heap : heap := [mkel MISC (py "see (2005)") []; set Kyear (VS (py "2005")) (mkel JOURNAL (py "from 2005") [])].
Example C46_taken_out_case : exists h', closed c46_heap [0; 1] /\ NoDup [0; 1] /\ add_year_one c46_heap [0; 1] = Ok (h', [0; 1; 2])
  /\ map (fun a => e_misc (deref h' a)) [0; 1; 2] = [py "see "; py "from"; []].
Proof. eexists. split; [repeat constructor; cbn; lia|]. split; [repeat constructor; cbn; intuition lia|]. split; vm_compute; reflexivity. Qed.
(** One expects the year to be gone afterwards, the words around it to stay apart and only whole numbers to be taken.  False of the code. *)
Theorem C46_stays_refuted : remove_year (py "20200505") (py "2005") = py "2005".
Proof. vm_compute. reflexivity. Qed.
Print Assumptions C46_stays_refuted.
Theorem C46_joined_refuted : remove_year (py "in 2005 by them, no. 120054") (py "2005") = py "inby them, no. 14".
Proof. vm_compute. reflexivity. Qed.
Print Assumptions C46_joined_refuted.

(** ** C47 *)
(** [implied_all] says citation by citation which elements change and which journals are added *)
Theorem C47_implied_ibids : forall els h cs h' cs', split_citations els = (h, cs) -> look_for_implied_ibids (h, cs) = Ok (h', cs') ->
  implied_all None (map (map (deref h)) cs) (map (map (deref h')) cs').
Proof. exact look_for_implied_ibids_ok. Qed.
Print Assumptions C47_implied_ibids.
Definition c47_els : list el :=
  [set_str Kpage (py "123") (set_str Kvolume (py "D45") (set_str Ktitle (py "Phys.Rev.") (mkel JOURNAL [] []))); mkel MISC (py " ; 46 (1992) 12 [hep-th]") []].
Example C47_case : exists h cs h' cs' x, split_citations c47_els = (h, cs) /\ look_for_implied_ibids (h, cs) = Ok (h', cs')
  /\ map (map (deref h)) cs = [[hd (mkel MISC [] []) c47_els; mkel MISC (py " ") []]; [mkel MISC (py " 46 (1992) 12 [hep-th]") []]]
  /\ map (map (deref h')) cs' = [[hd (mkel MISC [] []) c47_els; mkel MISC (py " ") []]; [mkel MISC (py " [hep-th]") []; x]]
  /\ map (fun k => get k x) [Ktitle; Kvolume; Kyear; Kpage; Kpage_end] = [Some (VS (py "Phys.Rev.")); Some (VS (py "D46")); Some (VS (py "1992")); Some (VS (py "12")); Some VNone].
Proof. do 5 eexists. do 4 (split; [vm_compute; reflexivity|]). vm_compute. reflexivity. Qed.
(** One expects every numeration after the journal to give a reference.  False of the code: only the one at the start of the text does. *)
Theorem C47_second_refuted : exists h cs h' cs', split_citations (firstn 1 c47_els ++ [mkel MISC (py " ; 46 (1992) 12, 47 (1993) 5") []]) = (h, cs)
  /\ look_for_implied_ibids (h, cs) = Ok (h', cs') /\ map (map (fun a => e_type (deref h' a))) cs' = [[JOURNAL; MISC]; [MISC; JOURNAL]]
  /\ map (fun c => map (fun a => e_misc (deref h' a)) c) cs' = [[[]; py " "]; [py ", 47 (1993) 5"; []]].
Proof. do 4 eexists. do 3 (split; [vm_compute; reflexivity|]). vm_compute. reflexivity. Qed.
Print Assumptions C47_second_refuted.
