{
 "claims": [
  {
   "property": "C01",
   "status": "proved",
   "theorems": [
    "C01_line_blocks"
   ],
   "note": ""
  },
  {
   "property": "C02",
   "status": "proved",
   "theorems": [
    "C02_compositional"
   ],
   "note": ""
  },
  {
   "property": "C03",
   "status": "proved",
   "theorems": [
    "C03_clean"
   ],
   "note": ""
  },
  {
   "property": "C04",
   "status": "proved",
   "theorems": [
    "C04_totals_refuted",
    "C04_last_line"
   ],
   "note": "The natural claim (totals over all lines) is false of the code and refuted by a witness; what is proved is that the statistics are those of the last line alone."
  },
  {
   "property": "C05",
   "status": "proved",
   "theorems": [
    "C05_nothing_lost",
    "C05_at_least_one",
    "C05_nothing_invented"
   ],
   "note": ""
  },
  {
   "property": "C06",
   "status": "proved",
   "theorems": [
    "C06_nonadjacent_refuted",
    "C06_one_of_each",
    "C06_together",
    "C06_begins"
   ],
   "note": "The part about non-adjacent report numbers and collaborations is false of the code (refuted by witness); the rest is proved."
  },
  {
   "property": "C07",
   "status": "proved",
   "theorems": [
    "C07_author_lost_refuted",
    "C07_authors_kept"
   ],
   "note": "False of the code in general (refuted by witness, also from a line of text); proved for lines whose elements carry no semicolon."
  },
  {
   "property": "C08",
   "status": "proved",
   "theorems": [
    "C08_volumes",
    "C08_numeral",
    "C08_canonical",
    "C08_usual_rule_refuted"
   ],
   "note": "The usual subtractive rule is refuted for non-canonical numerals (VX); the rule implemented and its agreement with canonical numerals are proved for all volumes."
  },
  {
   "property": "C09",
   "status": "proved",
   "theorems": [
    "C09_special_journals",
    "C09_raises",
    "C09_never_raises_refuted",
    "C09_text_kept_refuted"
   ],
   "note": "'Never raises' is false of the code and refuted by a witness; when it raises is characterised. The effect on every element is proved otherwise."
  },
  {
   "property": "C10",
   "status": "proved",
   "theorems": [
    "C10_series_letter",
    "C10_rearranged",
    "C10_rearrangement_refuted",
    "C10_series_from_title",
    "C10_remove_b"
   ],
   "note": "False of the code in general (refuted by witness); the exact effect on every element is proved, and that characters are kept when nothing follows the letter."
  },
  {
   "property": "C11",
   "status": "proved",
   "theorems": [
    "C11_at_most_one_year",
    "C11_year_source",
    "C11_first_year_refuted"
   ],
   "note": "At most one year and its source are proved; the part 'the first year of a journal or book is used' is false of the code (refuted by witness)."
  },
  {
   "property": "C12",
   "status": "proved",
   "theorems": [
    "C12_tidy",
    "C12_surplus_kept"
   ],
   "note": ""
  },
  {
   "property": "C13",
   "status": "proved",
   "theorems": [
    "C13_recid_is_answer",
    "C13_no_callback_no_recid",
    "C13_first_answer",
    "C13_exceptions"
   ],
   "note": ""
  },
  {
   "property": "C14",
   "status": "proved",
   "theorems": [
    "C14_never_fails",
    "C14_terminates"
   ],
   "note": "All strings and all lists of identifiers; the loop is also shown to terminate."
  },
  {
   "property": "C15",
   "status": "proved",
   "theorems": [
    "C15_exceptions",
    "C15_exceptions_no_special",
    "C15_journal_exceptions",
    "C15_value_error_refuted",
    "C15_shipped_books_refuted",
    "C15_title_pattern_refuted",
    "C15_no_crash_refuted",
    "C15_no_index_error",
    "C15_no_exception",
    "C15_journal_no_exception",
    "C15_guillemet_refuted"
   ],
   "note": "All texts, consistent knowledge bases. Every stage from the section finder to the record builder is covered."
  },
  {
   "property": "C16",
   "status": "proved",
   "theorems": [
    "C16_counters"
   ],
   "note": "All lines, all lists of identifiers."
  },
  {
   "property": "C17",
   "status": "proved",
   "theorems": [
    "C17_text_kept",
    "C17_elements",
    "C17_unclosed_refuted",
    "C17_any_line"
   ],
   "note": "Exact decomposition of every line into texts, tags and contents."
  },
  {
   "property": "C18",
   "status": "proved",
   "theorems": [
    "C18_positions",
    "C18_start",
    "C18_publisher_refuted",
    "C18_upper_refuted",
    "C18_regex_titles_refuted"
   ],
   "note": "All lines; exact correspondence of pieces. The refutations are traced through tag_reference_line."
  },
  {
   "property": "C19",
   "status": "proved",
   "theorems": [
    "C19_masked",
    "C19_length",
    "C19_nested_refuted"
   ],
   "note": "All lines in which every opening tag is closed before the next tag."
  },
  {
   "property": "C20",
   "status": "proved",
   "theorems": [
    "C20_titles",
    "C20_ibids",
    "C20_reports",
    "C20_apart",
    "C20_word_numbers_refuted"
   ],
   "note": "All lines; all journal knowledge bases without underscores; report number patterns of the shape the builder makes, checked for the shipped knowledge base."
  },
  {
   "property": "C21",
   "status": "proved",
   "theorems": [
    "C21_longest",
    "C21_same_place",
    "C21_overlap_refuted"
   ],
   "note": "All lines; all journal knowledge bases whose titles are not empty and have no underscore."
  },
  {
   "property": "C22",
   "status": "proved",
   "theorems": [
    "C22_exact",
    "C22_tagged"
   ],
   "note": "All lines; soundness, completeness, and by C22_exact an equivalence with a grammar that has one reading of each line."
  },
  {
   "property": "C23",
   "status": "proved",
   "theorems": [
    "C23_tagged",
    "C23_adjacent_refuted"
   ],
   "note": "All lines satisfying the condition on links; the witness is traced through identify_and_tag_URLs."
  },
  {
   "property": "C24",
   "status": "proved",
   "theorems": [
    "C24_marker_split"
   ],
   "note": "Never fails; exact split into marker, white space and rest."
  },
  {
   "property": "C25",
   "status": "proved",
   "theorems": [
    "C25_blocks",
    "C25_letters_kept",
    "C25_never_fails",
    "C25_long_reference_refuted",
    "C25_fails_refuted"
   ],
   "note": "All lists of lines, all patterns; two refutations of the unrestricted form."
  },
  {
   "property": "C26",
   "status": "proved",
   "theorems": [
    "C26_consecutive"
   ],
   "note": ""
  },
  {
   "property": "C27",
   "status": "proved",
   "theorems": [
    "C27_end",
    "C27_keywords_refuted",
    "C27_double_spacing_refuted"
   ],
   "note": "For all documents, all start lines, and all marker patterns with the shape that the patterns of the code are shown to have."
  },
  {
   "property": "C28",
   "status": "proved",
   "theorems": [
    "C28_beginning",
    "C28_start_inside",
    "C28_last_title_refuted"
   ],
   "note": "Complete characterisation of the search."
  },
  {
   "property": "C29",
   "status": "proved",
   "theorems": [
    "C29_words",
    "C29_removed",
    "C29_only_furniture_refuted"
   ],
   "note": "Exact set of deleted lines, exact numbers of header and footer lines."
  },
  {
   "property": "C30",
   "status": "proved",
   "theorems": [
    "C30_history_independent",
    "C30_failed_load_refuted",
    "C30_custom_titles_stay_refuted",
    "C30_changed_file_refuted"
   ],
   "note": "Full extraction from lines in successive calls (cache of get_kbs and in-place update of the titles by tag_reference_line). Three refutations of the unrestricted statement. Equal sources are assumed to load alike."
  },
  {
   "property": "C31",
   "status": "proved",
   "theorems": [
    "C31_phrases",
    "C31_longest_first",
    "C31_search_phrase",
    "C31_standard_title",
    "C31_title_stands_for_itself_refuted"
   ],
   "note": ""
  },
  {
   "property": "C32",
   "status": "proved",
   "theorems": [
    "C32_stable_by_length",
    "C32_length_without_classes"
   ],
   "note": ""
  },
  {
   "property": "C33",
   "status": "proved",
   "theorems": [
    "C33_document_kept",
    "C33_idempotent",
    "C33_others_kept",
    "C33_other_files",
    "C33_never_fails_refuted"
   ],
   "note": "Full classification of all byte strings is proved (C33_other_files); 'never fails' is refuted by witnesses."
  },
  {
   "property": "C34",
   "status": "proved",
   "theorems": [
    "C34_all_or_none",
    "C34_file"
   ],
   "note": "Proved for attach_all and for whole extractions from files. Python's set iteration order is any order (hypothesis set_like)."
  },
  {
   "property": "C35",
   "status": "proved",
   "theorems": [
    "C35_only_links",
    "C35_names",
    "C35_one_column",
    "C35_exactly_one_refuted",
    "C35_order",
    "C35_two_columns",
    "C35_two_columns_refuted",
    "C35_near",
    "C35_next_page_refuted"
   ],
   "note": "The general 'exactly one' is refuted by witnesses. Proved: the order of the keys; one column of one page exactly; two columns of one page as far as it is true; for any number of pages where the reported links are."
  },
  {
   "property": "C36",
   "status": "proved",
   "theorems": [
    "C36_temporary_file_removed",
    "C36_outcome",
    "C36_downloaded",
    "C36_close_refuted"
   ],
   "note": "The leak when os.close fails is stated as C36_close_refuted."
  },
  {
   "property": "C37",
   "status": "proved",
   "theorems": [
    "C37_isolated",
    "C37_raw_text"
   ],
   "note": "Proved for any extraction function; every result of the real one has exactly one raw text."
  },
  {
   "property": "C38",
   "status": "proved",
   "theorems": [
    "C38_all_or_nothing"
   ],
   "note": "Proved for any extraction function."
  },
  {
   "property": "C39",
   "status": "proved",
   "theorems": [
    "C39_found",
    "C39_shift_refuted",
    "C39_empty_refuted"
   ],
   "note": "All texts and titles as restricted; the two refutations are shown on parse_references."
  },
  {
   "property": "C40",
   "status": "proved",
   "theorems": [
    "C40_reference_line",
    "C40_washed",
    "C40_repair_deletes",
    "C40_scheme_joined",
    "C40_no_runs",
    "C40_wash_words",
    "C40_wash_shorter",
    "C40_repair",
    "C40_only_spaces_refuted",
    "C40_backslash_refuted",
    "C40_idempotent_refuted"
   ],
   "note": "wash_line and repair_broken_urls, all lines."
  },
  {
   "property": "C41",
   "status": "proved",
   "theorems": [
    "C41_dash",
    "C41_archive",
    "C41_archive_idempotent",
    "C41_editors",
    "C41_editors_once"
   ],
   "note": ""
  },
  {
   "property": "C42",
   "status": "proved",
   "theorems": [
    "C42_never_fails",
    "C42_section",
    "C42_long_line_refuted"
   ],
   "note": ""
  },
  {
   "property": "C43",
   "status": "proved",
   "theorems": [
    "C43_same_line_refuted",
    "C43_same_line_merged"
   ],
   "note": "Witness, and a proof that the merging happens in every text of this layout."
  },
  {
   "property": "C44",
   "status": "proved",
   "theorems": [
    "C44_rebuilt_line",
    "C44_used_once_refuted",
    "C44_one_line"
   ],
   "note": "All lines and matches. From an item on that begins inside text already used the relation says nothing; that case is the refuted one."
  },
  {
   "property": "C45",
   "status": "proved",
   "theorems": [
    "C45_authors_tagged",
    "C45_author_text",
    "C45_semicolon_refuted",
    "C45_missed_author_refuted"
   ],
   "note": "All lines and patterns; the condition on the length of the masked line is met whenever tags are not nested (C19)."
  },
  {
   "property": "C46",
   "status": "proved",
   "theorems": [
    "C46_removed",
    "C46_absent",
    "C46_once",
    "C46_bracketed",
    "C46_taken_out",
    "C46_stays_refuted",
    "C46_joined_refuted"
   ],
   "note": "All texts; all citations without repeated elements."
  },
  {
   "property": "C47",
   "status": "proved",
   "theorems": [
    "C47_implied_ibids",
    "C47_second_refuted"
   ],
   "note": "All element lists, through the splitter."
  },
  {
   "property": "C48",
   "status": "proved",
   "theorems": [
    "C48_leading_lines",
    "C48_all_dropped_refuted"
   ],
   "note": "All lists of lines."
  },
  {
   "property": "C49",
   "status": "proved",
   "theorems": [
    "C49_books",
    "C49_no_failure",
    "C49_text_kept_refuted"
   ],
   "note": "All element lists and tables."
  },
  {
   "property": "C50",
   "status": "proved",
   "theorems": [
    "C50_blank_lines_count",
    "C50_cut_at_blank_lines",
    "C50_cut_by_indentation",
    "C50_paragraphs_refuted"
   ],
   "note": "All lists of lines; the cut at blank lines for lines that are not the empty string (lines read from a file)."
  },
  {
   "property": "C51",
   "status": "proved",
   "theorems": [
    "C51_handles",
    "C51_in_order",
    "C51_addresses",
    "C51_identifier_refuted",
    "C51_order_refuted"
   ],
   "note": "All element lists; the order for lists without elements that are alike."
  },
  {
   "property": "C52",
   "status": "proved",
   "theorems": [
    "C52_no_index_error",
    "C52_journals",
    "C52_capitals",
    "C52_extraction"
   ],
   "note": "All tables of journals and of full book rows; the other tables as shipped (ShippedReports.v, ShippedKbs.v)."
  },
  {
   "property": "C53",
   "status": "proved",
   "theorems": [
    "C53_fields",
    "C53_values",
    "C53_schemes"
   ],
   "note": "Fields as a function of the elements of the citation (contributions); the elements are those of parse_references_elements."
  },
  {
   "property": "C54",
   "status": "proved",
   "theorems": [
    "C54_quoted",
    "C54_isbn",
    "C54_atlas",
    "C54_volume",
    "C54_words_refuted",
    "C54_thirteen_refuted"
   ],
   "note": "Exact specification of the four substitutions; two expectations refuted by witnesses."
  },
  {
   "property": "C55",
   "status": "proved",
   "theorems": [
    "C55_arxiv",
    "C55_old",
    "C55_version_refuted",
    "C55_archive_refuted"
   ],
   "note": "Exact specification of all passes; the patterns with years are checked equal to their specification for each present year 2013-2100; two expectations refuted by witnesses."
  },
  {
   "property": "C56",
   "status": "proved",
   "theorems": [
    "C56_pos",
    "C56_year_first_refuted",
    "C56_word_refuted"
   ],
   "note": "C56_pos: exact specification of the four passes (language of the patterns with captures, greediness of the name and the page); two refutations by computed witnesses."
  },
  {
   "property": "C57",
   "status": "proved",
   "theorems": [
    "C57_found",
    "C57_around_title",
    "C57_year_inside",
    "C57_year_last",
    "C57_year_first",
    "C57_series_refuted"
   ],
   "note": "C57_found, C57_around_title: the patterns as grammars of texts with fields, exact in both directions; C57_year_inside, C57_year_last, C57_year_first: the fields of the usual forms for all numbers; one refutation by a computed witness."
  },
  {
   "property": "C58",
   "status": "proved",
   "theorems": [
    "C58_marker",
    "C58_brackets",
    "C58_dot",
    "C58_beginning",
    "C58_first_marker",
    "C58_body_marker",
    "C58_references",
    "C58_title_again",
    "C58_end"
   ],
   "note": "C58_marker, C58_beginning, C58_first_marker, C58_body_marker, C58_end: the patterns as grammars of texts, exact; C58_brackets, C58_dot: the usual markers for all numbers."
  },
  {
   "property": "C59",
   "status": "proved",
   "theorems": [
    "C59_found",
    "C59_none",
    "C59_slashes_idle"
   ],
   "note": "C59_found, C59_none: exact, by an invariant of the loop over the sorted categories; C59_slashes_idle: the number as written."
  },
  {
   "property": "C60",
   "status": "proved",
   "theorems": [
    "C60_read_back",
    "C60_numeration",
    "C60_further",
    "C60_no_numeration",
    "C60_no_further"
   ],
   "note": "Texts and the contents of tags may hold any character and any angle bracket, but not <cds. or </cds.; the counters are stated in C16. Proved for the parser on any written line; that the tagger writes such lines is not part of it."
  },
  {
   "property": "C61",
   "status": "proved",
   "theorems": [
    "C61_names",
    "C61_tagged",
    "C61_not_nested",
    "C61_bare_refuted"
   ],
   "note": "C61_bare_refuted is the witness against the expectation. Proved for the shipped table; lines with tags inside tags are those of C19."
  },
  {
   "property": "C62",
   "status": "proved",
   "theorems": [
    "C62_books",
    "C62_table"
   ],
   "note": "One author can be an element of two citations (postpone_last_auth); the theorem is stated for citations without shared elements."
  },
  {
   "property": "C63",
   "status": "proved",
   "theorems": [
    "C63_found",
    "C63_table",
    "C63_readings",
    "C63_one"
   ],
   "note": "C63_found composes the grammar with C59; C63_table shows that the table in ShippedForms.v has the categories of the shipped file and no others."
  },
  {
   "property": "C64",
   "status": "proved",
   "theorems": [
    "C64_table",
    "C64_found",
    "C64_unmasked",
    "C64_once_refuted"
   ],
   "note": "C64_once_refuted: \"A. Bee, Kluwer Academic, 1999\" is tagged with two publishers."
  },
  {
   "property": "C65",
   "status": "proved",
   "theorems": [
    "C65_found",
    "C65_one",
    "C65_end_refuted"
   ],
   "note": "C65_end_refuted: in \"SEE PHYS LETT\" the title PHYS LETT is not found."
  },
  {
   "property": "C66",
   "status": "proved",
   "theorems": [
    "C66_ibids",
    "C66_recognised",
    "C66_dan",
    "C66_kinds",
    "C66_word_refuted"
   ],
   "note": "C66_word_refuted: the name \"T. Shibid\" before a numeration becomes \"T. Sh\" and an ibid."
  },
  {
   "property": "C67",
   "status": "proved",
   "theorems": [
    "C67_page_breaks",
    "C67_first_try",
    "C67_second_try",
    "C67_lines",
    "C67_journal"
   ],
   "note": "Found by wrong programs that no earlier theorem rejected. The second try is stated for files that cleaning twice leaves as cleaning once (C33)."
  }
 ]
}
