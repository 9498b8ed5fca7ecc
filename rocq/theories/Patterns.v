(** The regular expressions of refextract, as pattern text compiled by
    [RegexParse.compile].  Each [..._src] is the concatenation of string literals
    found at the cited lines of references/regexs.py (unless another file is named). *)
From Coq Require Import List Arith NArith Bool String.
From Verif Require Import PyStr Regex RegexParse.
Import ListNotations.
Local Open Scope string_scope.

Notation "a +++ b" := (String.append a b) (at level 60, right associativity).

(** 28, 30 *)
Definition re_sep := "\s*[,\s:-]\s*".
Definition re_sep_opt := "\s*[,\s:-]?\s*".

(** ** PoS volumes: 35-86 *)
Definition re_pos_year_num := "(?:19|20)\d{2}".
Definition re_pos_year_g :=
  "(?P<year>(" +++ "\s" +++ re_pos_year_num +++ "\s" +++ "|" +++ "\(" +++ re_pos_year_num +++ "\)" +++ "))".
Definition re_pos_volume := "(?P<volume_name>\w{1,10})" +++ re_sep_opt +++ "(?P<volume_num>(?:19|20)\d{2})".
Definition re_pos_volume_par := "\(" +++ re_pos_volume +++ "\)".
Definition re_pos_page := "(?P<page>\d{1,4})".
Definition re_pos_title := "POS".
Definition re_pos_1_src :=
  re_pos_title +++ re_sep_opt +++ re_pos_year_g +++ re_sep +++ re_pos_volume +++ re_sep +++ re_pos_page.
Definition re_pos_2_src :=
  re_pos_title +++ re_sep +++ re_pos_volume +++ re_sep_opt +++ re_pos_year_g +++ re_sep_opt +++ re_pos_page.
Definition re_pos_3_src :=
  re_pos_title +++ re_sep +++ re_pos_volume +++ re_sep +++ re_pos_page +++ re_sep_opt +++ re_pos_year_g.
Definition re_pos_4_src :=
  re_pos_title +++ re_sep_opt +++ re_pos_volume_par +++ re_sep_opt +++ re_pos_page.
Definition re_pos_1 := Eval vm_compute in the_rx (compile fXI (py re_pos_1_src)).
Definition re_pos_2 := Eval vm_compute in the_rx (compile fXI (py re_pos_2_src)).
Definition re_pos_3 := Eval vm_compute in the_rx (compile fXI (py re_pos_3_src)).
Definition re_pos_4 := Eval vm_compute in the_rx (compile fXI (py re_pos_4_src)).
Definition re_pos := [re_pos_1; re_pos_2; re_pos_3; re_pos_4].
Definition re_pos_year_num_rx := Eval vm_compute in the_rx (compile noflags (py re_pos_year_num)).

(** ** arXiv numbers: 90-125 *)
Definition re_arxiv_src := "
    ARXIV[\s:-]*(?P<year>\d{2})-?(?P<month>\d{2})
    [\s.-]*(?P<num>\d{4})(?!\d)(?:[\s-]*V(?P<version>\d))?
    \s*(?P<suffix>\[[A-Z.-]+\])? ".
Definition re_arxiv := Eval vm_compute in the_rx (compile fXI (py re_arxiv_src)).
Definition re_arxiv_5digits_src := "
    ARXIV[\s:-]*(?P<year>(1[3-9]|[2-8][0-9]))-?(?P<month>(0[1-9]|1[0-2]))
    [\s.-]*(?P<num>\d{5})(?!\d)(?:[\s-]*V(?P<version>\d))?
    \s*(?P<suffix>\[[A-Z.-]+\])? ".
Definition re_arxiv_5digits := Eval vm_compute in the_rx (compile fXI (py re_arxiv_5digits_src)).
Definition re_arxiv_catchup_src := "
    ARXIV[\s:-]*(?P<year>\d{2})-?(?P<month>\d{2})
    [\s.-]*(?P<num>\d{3})
    \s*\[(?P<suffix>[A-Z.-]+)\]".
Definition re_arxiv_catchup := Eval vm_compute in the_rx (compile fXI (py re_arxiv_catchup_src)).

(** ATLAS CONF numbers: 119-124 *)
Definition re_atlas_pre_src := "(?<!\w:)ATL(AS)?-CONF-(?P<code>(?:200\d|99)-\d{3})(?![\w\d])".
Definition re_atlas_pre := Eval vm_compute in the_rx (compile noflags (py re_atlas_pre_src)).
Definition re_atlas_post_src := "(?<!\w:)ATL(AS)?-CONF-(?P<code>20[1-9]\d-\d{3})(?![\w\d])".
Definition re_atlas_post := Eval vm_compute in the_rx (compile noflags (py re_atlas_post_src)).

(** Old arXiv numbers: 128-262.  The second component is the replacement of the
    category, [None] to keep the matched one. *)
Definition old_arxiv_numbers :=
  "[\|/:\s-]?(?P<num>(?:9[1-9]|0[0-7])(?:0[1-9]|1[0-2])\d{3})(" +++ "?:v\d{1,3})?(?=[^\w\d]|$)".
Definition old_arxiv : list (string * option string) :=
  [("acc-ph", None);
   ("astro-ph", None);
   ("astro-phy", Some "astro-ph");
   ("astro-ph\.[a-z]{2}", None);
   ("atom-ph", None);
   ("chao-dyn", None);
   ("chem-ph", None);
   ("cond-mat", None);
   ("cs", None);
   ("cs\.[a-z]{2}", None);
   ("gr-qc", None);
   ("hep-ex", None);
   ("hep-lat", None);
   ("hep-ph", None);
   ("hepph", Some "hep-ph");
   ("hep-th", None);
   ("hepth", Some "hep-th");
   ("math", None);
   ("math\.[a-z]{2}", None);
   ("math-ph", None);
   ("nlin", None);
   ("nlin\.[a-z]{2}", None);
   ("nucl-ex", None);
   ("nucl-th", None);
   ("physics", None);
   ("physics\.acc-ph", None);
   ("physics\.ao-ph", None);
   ("physics\.atm-clus", None);
   ("physics\.atom-ph", None);
   ("physics\.bio-ph", None);
   ("physics\.chem-ph", None);
   ("physics\.class-ph", None);
   ("physics\.comp-ph", None);
   ("physics\.data-an", None);
   ("physics\.ed-ph", None);
   ("physics\.flu-dyn", None);
   ("physics\.gen-ph", None);
   ("physics\.geo-ph", None);
   ("physics\.hist-ph", None);
   ("physics\.ins-det", None);
   ("physics\.med-ph", None);
   ("physics\.optics", None);
   ("physics\.plasm-ph", None);
   ("physics\.pop-ph", None);
   ("physics\.soc-ph", None);
   ("physics\.space-ph", None);
   ("plasm-ph", Some "physics.plasm-ph");
   ("q-bio\.[a-z]{2}", None);
   ("q-fin\.[a-z]{2}", None);
   ("q-alg", None);
   ("quant-ph", None);
   ("quant-phys", Some "quant-ph");
   ("solv-int", None);
   ("stat\.[a-z]{2}", None);
   ("stat-mech", None);
   ("dg-ga", None);
   ("hap-ph", Some "hep-ph");
   ("funct-an", None);
   ("quantph", Some "quant-ph");
   ("stro-ph", Some "astro-ph");
   ("hepex", Some "hep-ex");
   ("math-ag", Some "math.ag");
   ("math-dg", Some "math.dg");
   ("nuc-th", Some "nucl-th");
   ("math-ca", Some "math.ca");
   ("nlin-si", Some "nlin.si");
   ("quantum-ph", Some "quant-ph");
   ("ep-ph", Some "hep-ph");
   ("ep-th", Some "hep-ph");
   ("ep-ex", Some "hep-ex");
   ("hept-h", Some "hep-th");
   ("hepp-h", Some "hep-ph");
   ("physi-cs", Some "physics");
   ("asstro-ph", Some "astro-ph");
   ("hep-lt", Some "hep-lat");
   ("he-ph", Some "hep-ph");
   ("het-ph", Some "hep-ph");
   ("mat-ph", Some "math.th");
   ("math-th", Some "math.th");
   ("ucl-th", Some "nucl-th");
   ("nnucl-th", Some "nucl-th");
   ("nuclt-th", Some "nucl-th");
   ("atro-ph", Some "astro-ph");
   ("qnant-ph", Some "quant-ph");
   ("astr-ph", Some "astro-ph");
   ("math-qa", Some "math.qa");
   ("tro-ph", Some "astro-ph");
   ("hucl-th", Some "nucl-th");
   ("math-gt", Some "math.gt");
   ("math-nt", Some "math.nt");
   ("math-ct", Some "math.ct");
   ("math-oa", Some "math.oa");
   ("math-sg", Some "math.sg");
   ("math-ap", Some "math.ap");
   ("quan-ph", Some "quant-ph");
   ("nlin-cd", Some "nlin.cd");
   ("math-sp", Some "math.sp");
   ("ast-ph", Some "astro-ph");
   ("asyro-ph", Some "astro-ph");
   ("aastro-ph", Some "astro-ph");
   ("astrop-ph", Some "astro-ph");
   ("arxivastrop-ph", Some "astro-ph");
   ("hept-th", Some "hep-th");
   ("quan-th", Some "quant-th");
   ("asro-ph", Some "astro-ph");
   ("castro-ph", Some "astro-ph");
   ("asaastro-ph", Some "astro-ph");
   ("hhep-ph", Some "hep-ph");
   ("hhep-ex", Some "hep-ex");
   ("alg-geom", None);
   ("nuclth", Some "nucl-th")].
Definition old_arxiv_src (report_pattern : string) :=
  "(?<!<cds\.REPORTNUMBER>)(?<!\w)" +++ "(?P<name>" +++ report_pattern +++ ")" +++ old_arxiv_numbers.
Definition re_old_arxiv : list (rx * option str) :=
  Eval vm_compute in
  map (fun e => (the_rx (compile fI (py (old_arxiv_src (fst e)))), option_map py (snd e))) old_arxiv.

(** compute_years 265-267: the two last digits of the years start..current.  The
    clock is the argument [current]. *)
Definition two_digits (y : N) : str := skipn 2 (str_of_N y).
Definition compute_years (start current : N) : str :=
  join (py "|") (map (fun i => two_digits (start + N.of_nat i)%N)
                     (seq 0 (N.to_nat (current + 1 - start)))).
(** re_new_arxiv(_5digits) 280-302 *)
Definition re_new_arxiv_src (years : str) : str :=
  (py " # 9910.1234v9 [physics.ins-det]
    (?<!ARXIV:)(?<!\d)
    (?P<year>" ++ years ++ py ")
    (?P<month>(0[1-9]|1[0-2]))
    \.(?P<num>\d{4})(?:[\s-]*V(?P<version>\d))?(?!\d)
    \s*(?P<suffix>\[[A-Z.-]+\])? ")%list.
Definition re_new_arxiv_5digits_src (years : str) : str :=
  (py " # 9910.1234v9 [physics.ins-det]
    (?<!ARXIV:)(?<!\d)
    (?P<year>" ++ years ++ py ")
    (?P<month>(0[1-9]|1[0-2]))
    \.(?P<num>\d{5})(?:[\s-]*V(?P<version>\d))?(?!\d)
    \s*(?P<suffix>\[[A-Z.-]+\])? ")%list.
Definition re_new_arxiv (now : N) : rx := the_rx (compile fXI (re_new_arxiv_src (compute_years 1991 now))).
Definition re_new_arxiv_5digits (now : N) : rx :=
  the_rx (compile fXI (re_new_arxiv_5digits_src (compute_years 2013 now))).

(** ** Quoted text 305, ISBN 308-314, KB lines 317-319 *)
Definition re_quoted_src := """(?P<title>[^""]+)""".
Definition re_quoted := Eval vm_compute in the_rx (compile noflags (py re_quoted_src)).
Definition re_isbn_src := "
    (?:ISBN[-– ]*(?:|10|13)|International Standard Book Number)
    [:\s]*
    (?P<code>[-\-–0-9Xx]{10,25})".
Definition re_isbn := Eval vm_compute in the_rx (compile fX (py re_isbn_src)).
Definition re_kb_line_src := "^\s*(?P<seek>[^\s].*)\s*---\s*(?P<repl>[^\s].*)\s*$".
Definition re_kb_line := Eval vm_compute in the_rx (compile noflags (py re_kb_line_src)).
Definition re_reference_in_dest_src := "^cite\.(.*)$".
Definition re_reference_in_dest := Eval vm_compute in the_rx (compile noflags (py re_reference_in_dest_src)).
Definition re_regexp_character_class := Eval vm_compute in the_rx (compile noflags (py "\[[^\]]+\]")).
Definition re_multiple_hyphens := Eval vm_compute in the_rx (compile noflags (py "-{2,}")).
Definition re_extract_quoted_text := Eval vm_compute in the_rx (compile noflags (py "\""([^""]+)\""")).
Definition re_extract_char_class := Eval vm_compute in the_rx (compile noflags (py " \[([^\]]+) \]")).

(** ** URLs: 354-386 *)
Definition raw_url_pattern := "
        (https?|s?ftp)://(?:[\w\d_.-])+(?::\d{1,5})?
        (?:/[\w\d_.?=&%~∼-]+)*/?
".
Definition re_raw_url_src := "['""]?(?P<url>" +++ raw_url_pattern +++ ")['""]?".
Definition re_raw_url := Eval vm_compute in the_rx (compile fXI (py re_raw_url_src)).
Definition re_html_tagged_url_src := "
    # Opening a tag
    <a\s+
    # href attribute
    href\s*=\s*[\'""]
    # href value
    (?P<url>" +++ raw_url_pattern +++ ")
    # href closing quote
    ['""]\s*>
    # Tag content
    (?P<desc>[^\<]+)
    # Closing a tag
    </a>".
Definition re_html_tagged_url := Eval vm_compute in the_rx (compile fXI (py re_html_tagged_url_src)).

(** ** Tagged numeration: 389-418 *)
Definition vol_tag := "<cds\.VOL\>(?P<vol>[^<]+)<\/cds\.VOL>".
Definition year_tag := "\<cds\.YR\>\((?P<yr>[^<]+)\)\<\/cds\.YR\>".
Definition series_tag := "(?P<series>(?:[A-H]|I{1,3}V?|VI{0,3}))?".
Definition page_tag := "\<cds\.PG\>(?P<pg>[^<]+)\<\/cds\.PG\>".
Definition re_recognised_numeration_src :=
  "^\s*[\.,]?\s*(?:Ser\.\s*)?" +++ series_tag +++ "\s*:?\s*" +++ vol_tag +++ "\s*(?: " +++ year_tag
  +++ ")?\s*(?: " +++ page_tag +++ ")".
Definition re_recognised_numeration := Eval vm_compute in the_rx (compile noflags (py re_recognised_numeration_src)).
Definition re_numeration_no_ibid_txt_src := "
          ^((\s*;\s*|\s+and\s+)(?P<series>(?:[A-H]|I{1,3}V?|VI{0,3}))?\s*:?\s
          ## Leading ; : or "" and :"", and a possible series letter
          \<cds\.VOL\>(?P<vol>\d+|(?:\d+\-\d+))\<\/cds\.VOL>\s                 ## Volume
          \<cds\.YR\>\((?P<yr>[12]\d{3})\)\<\/cds\.YR\>\s                      ## year
          \<cds\.PG\>(?P<pg>[RL]?\d+[c]?)\<\/cds\.PG\>)                        ## page
          ".
Definition re_numeration_no_ibid_txt := Eval vm_compute in the_rx (compile fX (py re_numeration_no_ibid_txt_src)).

(** 430 *)
Definition re_punctuation := Eval vm_compute in the_rx (compile noflags (py "[\.\,\;\'\(\)\-]")).

(** re_tagged_citation 434-456 *)
Definition re_tagged_citation_src := "
          \<cds\.                ## open tag: <cds.
          ((?:JOURNAL(?P<ibid>ibid)?)  ## a JOURNAL tag
          |VOL                   ## or a VOL tag
          |YR                    ## or a YR tag
          |PG                    ## or a PG tag
          |REPORTNUMBER          ## or a REPORTNUMBER tag
          |ARXIV                 ## or a ARXIV tag
          |SER                   ## or a SER tag
          |URL                   ## or a URL tag
          |DOI                   ## or a DOI tag
          |QUOTED                ## or a QUOTED tag
          |ISBN                  ## or a ISBN tag
          |PUBLISHER             ## or a PUBLISHER tag
          |COLLABORATION         ## or a COLLABORATION tag
          |AUTH(stnd|etal|incl)) ## or an AUTH tag
          (\s\/)?                ## optional /
          \>                     ## closing of tag (>)
          ".
Definition re_tagged_citation := Eval vm_compute in the_rx (compile fX (py re_tagged_citation_src)).

(** 466, 468, 469-471 *)
Definition re_ibid := Eval vm_compute in the_rx (compile noflags (py "(-|\b)?IBID(EM)?\.?")).
Definition re_series_from_numeration := Eval vm_compute in the_rx (compile noflags (py "^([A-Za-z])\s*[,\s:-]?\s*\d+")).
Definition re_series_from_numeration_after_volume :=
  Eval vm_compute in the_rx (compile noflags (py "^\d+\s*[,\s:-]?\s*([A-Z])")).
(** 487-490 *)
Definition re_wash_volume_tag := Eval vm_compute in the_rx (compile noflags (py "<cds\.VOL>(\w) (\d+)</cds\.VOL>")).

(** ** Numeration: 493-840 *)
Definition re_roman_numbers := "[XxVvIi]+".
Definition re_start := "\s*[,\s:-]?\s*".
Definition re_title_tag := "(?P<title_tag><cds\.JOURNAL>[^<]*<\/cds\.JOURNAL>)".
Definition re_volume_sub_number := "[Nn][oO°]\.?\s*\d{1,6}".
Definition re_volume_sub_number_opt := "(?:" +++ re_sep +++ "(?P<vol_sub>" +++ re_volume_sub_number +++ "))?".
Definition re_volume_prefix := "(?:[Vv]o?l?\.?|[Nn][oO°]\.?)".
Definition re_volume_suffix := "(?:\s*\(\d{1,2}(?:-\d)?\))?".
Definition re_volume_num := "\d+|" +++ "(?:(?<!\w)" +++ re_roman_numbers +++ "(?!\w))".
Definition re_volume_id :=
  "(?P<vol>(?:(?:[A-Za-z]\s*[,\s:-]?\s*)?(?P<vol_num>" +++ re_volume_num +++ "))|(" +++
  "?:(?P<vol_num_alt>" +++ re_volume_num +++ ")(?:[A-Za-z]))|(?:(?:[A-Za-z]\s?)?(" +++
  "?P<vol_num_alt2>\d+)\s*\-\s*(?:[A-Za-z]\s?)?\d+))".
Definition re_volume_check := "(?<![\/\d])".
Definition re_volume :=
  "\b" +++ "(?:" +++ re_volume_prefix +++ ")?\s*" +++ re_volume_check +++ re_volume_id +++ re_volume_suffix.
Definition re_short_month := "(?:(?:
[Jj]an|[Ff]eb|[Mm]ar|[Aa]pr|[Mm]ay|[Jj]un|
[Jj]ul|[Aa]ug|[Ss]ep|[Oo]ct|[Nn]ov|[Dd]ec
)\.?)".
Definition re_month := "(?:(?:
[Jj]anuary|[Ff]ebruary|[Mm]arch|[Aa]pril|[Mm]ay|[Jj]une|
[Jj]uly|[Aa]ugust|[Ss]eptember|[Oo]ctober|[Nn]ovember|[Dd]ecember
)\.?)".
Definition re_year_num := "(?:19|20)\d{2}".
Definition re_year_text := "(?P<year>[A-Za-z]?" +++ re_year_num +++ ")(?:[A-Za-z]?)".
Definition re_year := "
    \(?
    (?:" +++ re_short_month +++ "[,\s]\s*)?  # Jul, 1980
    (?:" +++ re_month +++ "[,\s]\s*)?        # July, 1980
    (?<!\d)
    " +++ re_year_text +++ "
    (?!\d)
    \)?
".
Definition re_page_prefix := "[pP]?[p]?\.?\s?".
Definition re_page_num := "[RL]?\w?\d+[cC]?".
Definition re_page_sep := "\s*-\s*".
Definition re_jinst_page := "(?P<jinst_page>[pP]\d{5}\d*)".
Definition re_page :=
  "(" +++ re_jinst_page +++ "|" +++ re_page_prefix +++ "(?P<page>" +++ re_page_num +++ ")(?:"
  +++ re_page_sep +++ "(?P<page_end>" +++ re_page_num +++ "))?" +++ ")".
Definition re_series := "(?P<series>[A-H])".
Definition re_look_ahead_parentesis := "(?=\()".
Definition re_sep_or_parentesis := "(?:" +++ re_sep +++ "|" +++ re_look_ahead_parentesis +++ ")".
Definition re_look_behind_parentesis := "(?<=\))".
Definition re_sep_or_after_parentesis := "(?:" +++ re_sep +++ "|" +++ re_look_behind_parentesis +++ ")".

Definition re_2nd_try_ptn1_src :=
  re_year +++ re_sep +++ re_title_tag +++ "(?P<aftertitle>" +++ re_sep +++ re_volume +++ re_sep +++ re_page +++ ")".
Definition re_2nd_try_ptn2_src :=
  re_year +++ re_sep +++ re_title_tag +++ "(?P<aftertitle>" +++ re_sep +++ re_volume +++ re_sep +++ re_series
  +++ re_sep +++ re_page +++ ")".
Definition re_2nd_try_ptn3_src :=
  re_title_tag +++ "(?P<aftertitle>" +++ re_sep +++ re_volume +++ re_sep +++ re_page +++ ")".
Definition re_2nd_try_ptn4_src :=
  re_title_tag +++ "(?P<aftertitle>" +++ re_sep +++ re_year +++ "\s*[.,\s:]\s*" +++ re_volume +++ re_sep
  +++ re_page +++ ")".
Definition re_2nd_try_ptn1 := Eval vm_compute in the_rx (compile fX (py re_2nd_try_ptn1_src)).
Definition re_2nd_try_ptn2 := Eval vm_compute in the_rx (compile fX (py re_2nd_try_ptn2_src)).
Definition re_2nd_try_ptn3 := Eval vm_compute in the_rx (compile fX (py re_2nd_try_ptn3_src)).
Definition re_2nd_try_ptn4 := Eval vm_compute in the_rx (compile fX (py re_2nd_try_ptn4_src)).

Definition re_nucphysb_subtitle := "(?:[\(\[]\s*(?:[Ff][Ss]|[Pp][Mm])\s*\d{0,4}\s*[\)\]])".
Definition re_nucphysb_subtitle_opt := "(?:" +++ re_sep +++ re_nucphysb_subtitle +++ ")?".

Definition re_num_vol_page_yr_src :=
  re_start +++ re_volume +++ re_volume_sub_number_opt +++ re_sep +++ re_page +++ re_sep_or_parentesis +++ re_year.
Definition re_num_vol_nucphys_page_yr_src :=
  re_start +++ re_volume +++ re_volume_sub_number_opt +++ re_sep +++ re_nucphysb_subtitle +++ re_sep +++ re_page
  +++ re_sep_or_parentesis +++ re_year.
Definition re_num_nucphys_vol_page_yr_src :=
  re_start +++ re_nucphysb_subtitle +++ re_sep +++ re_volume +++ re_sep +++ re_page +++ re_sep_or_parentesis +++ re_year.
Definition re_num_vol_yr_page_src :=
  re_start +++ re_volume +++ re_sep_or_parentesis +++ re_year +++ re_sep_or_after_parentesis +++ re_page.
Definition re_num_vol_subvol_nucphys_yr_page_src :=
  re_start +++ re_volume +++ re_volume_sub_number_opt +++ re_nucphysb_subtitle_opt +++ re_sep_or_parentesis
  +++ re_year +++ re_sep_or_after_parentesis +++ re_page.
Definition re_num_vol_nucphys_yr_subvol_page_src :=
  re_start +++ re_volume +++ re_nucphysb_subtitle_opt +++ re_sep_or_parentesis +++ re_year
  +++ re_volume_sub_number_opt +++ re_sep +++ re_page.
Definition re_num_nucphys_vol_yr_page_src :=
  re_start +++ re_nucphysb_subtitle +++ re_sep +++ re_volume +++ re_sep_or_parentesis +++ re_year
  +++ re_sep_or_after_parentesis +++ re_page.
Definition re_num_vol_nucphys_series_yr_page_src :=
  re_start +++ re_volume +++ re_nucphysb_subtitle_opt +++ re_sep +++ re_series +++ re_sep_or_parentesis
  +++ re_year +++ re_sep_or_after_parentesis +++ re_page.
Definition re_num_vol_series_nucphys_page_yr_src :=
  re_start +++ re_volume +++ re_sep +++ re_series +++ re_nucphysb_subtitle_opt +++ re_sep +++ re_page
  +++ re_sep +++ re_year.
Definition re_num_vol_nucphys_series_page_yr_src :=
  re_start +++ re_volume +++ re_nucphysb_subtitle_opt +++ re_sep +++ re_series +++ re_sep +++ re_page
  +++ re_sep +++ re_year.
Definition re_num_yr_vol_page_src :=
  re_start +++ re_year +++ re_sep_or_after_parentesis +++ re_volume +++ re_sep +++ re_page.
(** in the order in which find_numeration (tag.py 1115-1132) tries them *)
Definition numeration_srcs :=
  [re_num_vol_page_yr_src; re_num_vol_nucphys_page_yr_src; re_num_nucphys_vol_page_yr_src;
   re_num_vol_subvol_nucphys_yr_page_src; re_num_vol_nucphys_yr_subvol_page_src;
   re_num_vol_yr_page_src; re_num_nucphys_vol_yr_page_src; re_num_vol_nucphys_series_yr_page_src;
   re_num_vol_series_nucphys_page_yr_src; re_num_vol_nucphys_series_page_yr_src;
   re_num_yr_vol_page_src].
Definition numeration_rxs : list rx := Eval vm_compute in map (fun s => the_rx (compile fX (py s))) numeration_srcs.

(** ** DOI 823-836, HDL 839-845 *)
Definition re_doi_src := "
    ((\(?[Dd][Oo][Ii](\s)*\)?:?(\s)*)  # 'doi:' or 'doi' or '(doi)'(upper or lower case)
    |(https?://(dx\.)?doi\.org\/))?    # or 'http://(dx.)doi.org/'
    (?P<doi>10\.                       # 10.                       (mandatory for DOI's)
    \d{3,7}                            # [0-9] x 3-7
    (\.\w+)*                           # subdivisions separated by . (optional)
    (/|%2f)                            # / (possibly urlencoded)
    [\w\-_:;\(\)/\.<>]+                # any character
    [\w\-_:;\(\)/<>])                  # any character excluding a full stop
    ".
Definition re_doi := Eval vm_compute in the_rx (compile fXI (py re_doi_src)).
Definition re_hdl_src := "([hH][dD][lL]:
                          |https?://hdl\.handle\.net/)
                         (?P<hdl_id>\S+/\S+)".
Definition re_hdl := Eval vm_compute in the_rx (compile fX (py re_hdl_src)).

(** ** Reference section titles: 848-908 *)
Fixpoint with_optional_spaces (w : str) : str :=
  match w with
  | [] => []
  | c :: t => if is_space c then c :: with_optional_spaces t
              else (c :: py "\s*" ++ with_optional_spaces t)%list
  end.
Definition section_titles : list string :=
  ["references"; "rÉférences"; "rÉfÉrences"; "r´ef´erences"; "bibliography"; "bibliographie";
   "literaturverzeichnis"; "citations"; "refs"; "publicationsréfs"; "rÉfs"; "reference";
   "référence"; "rÉfÉrence"].
Definition sect_marker := "^\s*([\[\-\{\(])?\s*" +++ "((\w|\d){1,5}([\.\-\,](\w|\d){1,5})?\s*"
  +++ "[\.\-\}\)\]]\s*)?" +++ "(?P<title>".
Definition sect_marker1 := "^(\d){1,3}\s*(?P<title>".
Definition line_end := "(\s*s\s*e\s*c\s*t\s*i\s*o\s*n\s*)?)\.?([\)\}\]])?"
  +++ "($|\s*[\[\{\(\<]\s*[1a-z]\s*[\}\)\>\]]|\:$)".
Definition section_title_srcs : list str :=
  flat_map (fun t => [(py sect_marker ++ with_optional_spaces (py t) ++ py line_end)%list;
                      (py sect_marker1 ++ with_optional_spaces (py t) ++ py line_end)%list]) section_titles.
Definition reference_section_title_patterns : list rx :=
  Eval vm_compute in map (fun s => the_rx (compile fI s)) section_title_srcs.

(** ** Reference line markers: 911-953 *)
Definition marker_bodies : list string :=
  ["\[\s*(?P<marknum>\d+)\s*\]";
   "\[\s*[a-zA-Z:-]+\+?\s?(\d{1,4}[A-Za-z:-]?)?\s*\]";
   "\{\s*(?P<marknum>\d+)\s*\}";
   "\<\s*(?P<marknum>\d+)\s*\>";
   "\(\s*(?P<marknum>\d+)\s*\)";
   "(?P<marknum>\d+)\s*\.(?!\d)";
   "(?P<marknum>\d+)\s+";
   "(?P<marknum>\d+)\s*\]";
   "(?P<marknum>\d+)\s*\}";
   "(?P<marknum>\d+)\s*\)";
   "(?P<marknum>\d+)\s*\>";
   "\[\s*\d+\.\d+\s*\]";
   "\[\s*\]";
   "\*"].
(** The [prefix] argument is a pattern text. *)
Definition marker_src (prefix : str) (b : string) : str :=
  (py "\s*" ++ prefix ++ py "(?P<mark>" ++ py b ++ py ")")%list.
Definition numeration_marker_patterns (prefix : str) : list (res rx) :=
  map (fun b => compile fI (marker_src prefix b)) marker_bodies.
Definition marker_patterns : list rx :=
  Eval vm_compute in map the_rx (numeration_marker_patterns []).

(** 956-978 *)
Definition re_bracket_markers := Eval vm_compute in
  the_rx (compile fI (py "(?P<mark>(?P<left>\[)\s*(?P<marknum>\d+)\s*(?P<right>\]))")).
Definition re_curly_bracket_markers := Eval vm_compute in
  the_rx (compile fI (py "(?P<mark>(?P<left>\{)\s*(?P<marknum>\d+)\s*(?P<right>\}))")).
Definition re_dot_markers := Eval vm_compute in
  the_rx (compile fI (py "(?P<mark>(?P<left>)\s*(?P<marknum>\d+)\s*(?P<right>\.))")).
Definition re_number_markers := Eval vm_compute in
  the_rx (compile fI (py "(?P<mark>(?P<left>)\s*(?P<marknum>\d+)\s*(?P<right>))")).

(** ** End of the reference section: 981-1067 *)
Definition thead := "^\s*([\{\(\<\[]?\s*(\w|\d)\s*[\)\}\>\.\-\]]?\s*)?".
Definition ttail := "(\s*\:\s*)?".
Definition numatn := "(\d+|\w\b|i{1,3}v?|vi{0,3})[\.\,]{0,2}\b".
Definition roman_numbers := "[LVIX]".
Definition osp (w : string) : str := with_optional_spaces (py w).
Definition post_title_srcs : list str :=
  [py thead ++ osp "appendix" ++ py ttail;
   py thead ++ osp "appendices" ++ py ttail;
   py thead ++ osp "acknowledgement" ++ py "s?" ++ py ttail;
   py thead ++ osp "acknowledgment" ++ py "s?" ++ py ttail;
   py thead ++ osp "table" ++ py "\w?s?\d?" ++ py ttail;
   py thead ++ osp "figure" ++ py "s?" ++ py ttail;
   py thead ++ osp "list of figure" ++ py "s?" ++ py ttail;
   py thead ++ osp "annex" ++ py "s?" ++ py ttail;
   py thead ++ osp "discussion" ++ py "s?" ++ py ttail;
   py thead ++ osp "remercie" ++ py "s?" ++ py ttail;
   py thead ++ osp "index" ++ py "s?" ++ py ttail;
   py thead ++ osp "summary" ++ py "s?" ++ py ttail;
   py "^\s*" ++ osp "figure" ++ py numatn;
   py "^\s*" ++ osp "fig" ++ py "\.\s*" ++ py numatn;
   py "^\s*" ++ osp "fig" ++ py "\.?\s*\d\w?\b";
   py "^\s*" ++ osp "table" ++ py numatn;
   py "^\s*" ++ osp "tab" ++ py "\.\s*" ++ py numatn;
   py "^\s*" ++ osp "tab" ++ py "\.?\s*\d\w?\b";
   py "^\s*" ++ py roman_numbers ++ py "\.?\s*[Cc]onclusion[\w\s]*$";
   py "^\s*Appendix\s[A-Z]\s*\:\s*[a-zA-Z]+\s*"]%list.
Definition post_reference_title_patterns : list rx :=
  Eval vm_compute in map (fun s => the_rx (compile fI s)) post_title_srcs.
Definition post_keyword_srcs : list str :=
  [py "(" ++ osp "prepared" ++ py "|" ++ osp "created" ++ py ").*(AAS\s*)?\sLATEX";
   py "AAS\s+?LATEX\s+?" ++ osp "macros" ++ py "v";
   py "^\s*" ++ osp "This paper has been produced using";
   py "^\s*" ++ osp "This article was processed by the author using Springer-Verlag" ++ py " LATEX"]%list.
Definition post_reference_keyword_patterns : list rx :=
  Eval vm_compute in map (fun s => the_rx (compile fI s)) post_keyword_srcs.

(** ** Years: 1102-1110 *)
Definition re_year_in_misc_txt := Eval vm_compute in
  the_rx (compile noflags (py "(?:^|(?<!\d))(?:19|20)\d{2}(?:(?!\d)|$)")).

(** ** Small patterns inside engine.py and tag.py *)
Definition re_roman_full := Eval vm_compute in the_rx (compile noflags (py (re_roman_numbers +++ "$"))). (* engine 137 *)
Definition re_vol_1_2 := Eval vm_compute in the_rx (compile noflags (py "\d{1,2}$")).                     (* engine 152 *)
Definition re_page_year := Eval vm_compute in the_rx (compile noflags (py "(19|20)\d{2}$")).               (* engine 156 *)
Definition re_report := Eval vm_compute in the_rx (compile noflags (py "^(?P<name>[A-Z-]+)(?P<nums>[\d-]+)$")). (* 176 *)
Definition re_volume_letter := Eval vm_compute in the_rx (compile fI (py "(\d+)([A-Z])")).                 (* 282 *)
Definition re_letters4 := Eval vm_compute in the_rx (compile noflags (py "[a-zA-Z]{4,}")).                 (* 744, 775 *)
Definition re_cut_split := Eval vm_compute in the_rx (compile noflags (py "[ [{(a-zA-Z0-9]")).             (* 815 *)
Definition re_email := Eval vm_compute in the_rx (compile noflags (py "^\s*e\-?mail")).                    (* 1436 *)
Definition re_tag := Eval vm_compute in
  the_rx (compile noflags (py "<cds\.[A-Z]+>[^<]*</cds\.[A-Z]+>|<cds\.[A-Z]+ />")).                       (* tag 855 *)

(** ** authors/regexs.py 371 and 385-393 *)
Definition re_etal_src : string := "[Ee][Tt](?:(?:(?:,|\.)\s*)|(?:(?:,|\.)?\s+))[Aa][Ll][,\.]?[,\.]?".
Definition re_ed_notation_src : string := "
    (?:
        \(?
        (?:[Ee][Dd]|[Ee]dited|[Ee]ditor)\.?
        \s?
        \)?
        [\.\,]{0,2}
    )".
