(** Every pattern of the code compiles: [the_rx] gives the empty pattern for a source that does not. *)
From Coq Require Import List NArith Bool.
From Verif Require Import PyStr Regex RegexParse.
From Verif Require Patterns AuthorPatterns DocText Find Kbs RefText Tag Post Pdf.
Import ListNotations.

Definition compiled (p : rx) : bool := match rx_re p with Eps => false | _ => true end.
Lemma compiled_ok r : compiled (the_rx r) = true -> exists p, r = Ok p.
Proof. destruct r; [eauto|discriminate]. Qed.
Definition all_patterns : list rx :=
  [Patterns.re_pos_1;
   Patterns.re_pos_2;
   Patterns.re_pos_3;
   Patterns.re_pos_4;
   Patterns.re_pos_year_num_rx;
   Patterns.re_arxiv;
   Patterns.re_arxiv_5digits;
   Patterns.re_arxiv_catchup;
   Patterns.re_atlas_pre;
   Patterns.re_atlas_post;
   Patterns.re_quoted;
   Patterns.re_isbn;
   Patterns.re_kb_line;
   Patterns.re_reference_in_dest;
   Patterns.re_regexp_character_class;
   Patterns.re_multiple_hyphens;
   Patterns.re_extract_quoted_text;
   Patterns.re_extract_char_class;
   Patterns.re_raw_url;
   Patterns.re_html_tagged_url;
   Patterns.re_recognised_numeration;
   Patterns.re_numeration_no_ibid_txt;
   Patterns.re_punctuation;
   Patterns.re_tagged_citation;
   Patterns.re_ibid;
   Patterns.re_series_from_numeration;
   Patterns.re_series_from_numeration_after_volume;
   Patterns.re_wash_volume_tag;
   Patterns.re_2nd_try_ptn1;
   Patterns.re_2nd_try_ptn2;
   Patterns.re_2nd_try_ptn3;
   Patterns.re_2nd_try_ptn4;
   Patterns.re_doi;
   Patterns.re_hdl;
   Patterns.re_bracket_markers;
   Patterns.re_curly_bracket_markers;
   Patterns.re_dot_markers;
   Patterns.re_number_markers;
   Patterns.re_year_in_misc_txt;
   Patterns.re_roman_full;
   Patterns.re_vol_1_2;
   Patterns.re_page_year;
   Patterns.re_report;
   Patterns.re_volume_letter;
   Patterns.re_letters4;
   Patterns.re_cut_split;
   Patterns.re_email;
   Patterns.re_tag;
   AuthorPatterns.re_auth_real;
   AuthorPatterns.re_auth_near_miss_real;
   DocText.re_space_comma;
   DocText.re_space_semicolon;
   DocText.re_space_period;
   DocText.re_colon_space_colon;
   DocText.re_comma_space_colon;
   DocText.re_space_closing_square_bracket;
   DocText.re_opening_square_bracket_space;
   DocText.re_hyphens;
   DocText.re_multiple_space;
   DocText.re_group_captured_multiple_space;
   DocText.re_page_break;
   DocText.re_word_search;
   Find.re_num;
   Kbs.re_institute_name;
   Kbs.re_preprint_classification;
   Kbs.re_numeration_pattern;
   RefText.re_footer_pre;
   RefText.re_footer_post;
   RefText.re_blank_line;
   RefText.re_no_indent;
   RefText.re_lower_start;
   RefText.re_continuing;
   RefText.re_title_comma;
   Tag.re_etal_ci;
   Tag.re_ed_notation_ci;
   mkrx Post.year_any [];
   Pdf.re_break_in_line]
  ++ map fst Patterns.re_old_arxiv
  ++ Patterns.numeration_rxs
  ++ Patterns.reference_section_title_patterns
  ++ Patterns.marker_patterns
  ++ Patterns.post_reference_title_patterns
  ++ Patterns.post_reference_keyword_patterns
  ++ DocText.url_repair_patterns
  ++ Find.marker_body_rxs.
Lemma all_patterns_compile : forallb compiled all_patterns = true.
Proof. vm_compute. reflexivity. Qed.
