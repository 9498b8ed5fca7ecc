# Formal model of refextract: design

## Approach

* Language: Rocq (Coq 8.16.1), standard library only, no axioms, no functors, no plugins.
* Python `str` is `list N` (code points). Python exceptions are values (`res A := Ok a | Err exn`).
* The code is driven by regular expressions, so the model contains a backtracking matcher for Python's
  `re` (`Regex.v`) and a parser for Python pattern syntax (`RegexParse.v`). The patterns are the pattern
  texts of the code base, concatenated as the code concatenates them (`Patterns.v`, `AuthorPatterns.v`),
  and compiled by the parser inside Coq.
  `PatternsOk.v` checks that every one of them compiles (a failure would silently give an empty pattern).
* Generic facts about the matcher are proved once for every pattern (`RegexMeta.v`: matches inside the
  subject, groups inside the match, `finditer` ascending and disjoint, `sub` keeping the text between
  matches; `RegexLang.v`, `RegexWords.v`: a declarative reading of patterns, and completeness: a match
  that exists is found). Facts about a particular pattern come from proved static analyses or by
  inversion of the relational semantics.
* Dictionaries describing citation elements are records with a sorted list of optional fields. Objects
  that the code shares between citations (the postponed author of `split_citations_iter`) live in an
  explicit heap (`Elements.v`, `Post.v`), so that in-place updates are seen through every alias.
* Loops without a structural measure take fuel; running out is the distinguished error `OutOfFuel`,
  which is proved unreachable.
* Everything outside the code base is a universally quantified argument (see "Trusted base").

## Which code is modelled, and where

| source | model | remarks |
|--------|-------|---------|
| references/regexs.py | Patterns.v, Post.v (`remove_year`) | every pattern used by modelled code |
| authors/regexs.py | AuthorPatterns.v | `get_author_regexps`; theorems are for any author patterns (`env`) |
| references/tag.py | Tag.v, Numeration.v | all functions |
| references/engine.py 88-112, 614-690, 830-903, 1428-1541 | Engine.v, Api.v, RefText.v | line, section, document |
| references/engine.py 113-298, 560-599 | Transform.v | element transformations |
| references/engine.py 301-375 | Split.v | splitting into citations |
| references/engine.py 438-557, 692-827 | Post.v | work on the split citations (heap) |
| references/engine.py 905-1427 | ParseTagged.v | parser of the tagged line |
| references/record.py | Record.v | output records |
| references/find.py | Find.v | where the reference section is |
| references/text.py | RefText.v | reference lines |
| documents/text.py | DocText.v | washing, page boundaries, white space |
| references/kbs.py | Kbs.v, Session.v | builders, cache, successive calls |
| references/kbs/*.kb | ShippedReports.v, ShippedKbs.v | report numbers, collaborations, publishers, authors, special journals, line by line; journal titles and books are arbitrary tables |
| references/pdf.py, documents/pdf.py | Pdf.v | keys and links, page breaks |
| references/api.py, extract.py | Api.v | entry points |

Not modelled: dead code (`remove_invalid_references`, `merge_invalid_references`, `match_pagination`,
`get_single_author_pattern`, `get_collaborations_regexp`), `print_citations` and all logging, the
command lines of pdftotext and the internals of pypdf, requests, libmagic, unidecode, csv.

### Simplifications

* Matcher: an optional iteration of a repetition that consumes nothing is not attempted. The only pattern
  concerned is `(-|\b)?` in `re_ibid`, whose group is not used. Case-insensitive matching uses the
  simple case tables in `UnicodeTables.v`; a backtracking run has no step limit.
* Knowledge base regular expressions outside the supported syntax are rejected (`ReError`), where Python
  might accept them.
* `str.lower` without the final sigma rule; `str.upper` is complete (`Uppercase.v`).
* `int(s)` fails beyond 4300 digits, as CPython's default limit.
* Coordinates of PDF objects are integers (pypdf gives floats that are compared and divided once); names
  of destinations given as bytes are not modelled.
* Knowledge base rows of the wrong shape give one exception where Python may give another one;
  `load_kb_from_file` reads all lines before the builder sees the first one, so of two errors the
  other one can be reported. The rows the csv module yields are an oracle.
* The table of a session: file contents do not change during it unless the statement says so, and
  a missing entry of the dictionary raises when the dictionary is taken, not when it is used.
* The temporary directory of the URL entry point is a finite map from names to contents.
* `extra_ibids` inside a journal reference template prints as an unspecified text.
* `find.py` keeps pattern sources and compiles them again; the model keeps the compiled pattern.

## Properties

Statements are in properties.jsonl, theorem names in MANIFEST.json. `R`: the expected statement is false of
the code, refuted by a computed witness, and a true form is proved beside it.

| id | modelled | how proved |
|----|----------|------------|
| C01, C02 | parse_references, build_references | induction over lines; the splitter gives at least one citation |
| C03 | build_reference_fields | invariant over the element loop, composed through all stages |
| C04 R | parse_references_elements, sum_2_dictionaries | witness; exact form by induction |
| C05, C06 R, C07 R | split_citations_iter | loop invariant on the accumulator |
| C08 R, C09 R, C10 R, C41 | Transform.v | regex inversion, arithmetic, induction over strings |
| C11 R, C12, C13 | Post.v | heap invariants preserved by every stage |
| C14, C16, C17 R | parse_tagged_reference_line | measure; loop invariant on text and counters |
| C15 R | whole pipeline | for every stage: which exceptions it raises and which keys its elements have (ElementsOk, TagOk, LinesOk); for texts without "<": no step makes a new `<cds.UR` or `<cds.DO`, counted by an automaton (HitProofs, NumTotal before the line is rebuilt, LateTags, LateNames, LateLine after it), every piece of the line is put in at most once (TagRebuild), and the characters of each text stay within a set P (Chars, TagLine, PlainText); the shipped tables meet the conditions (PlainKbs) |
| C18 R, C19 R | remove_and_record_multiple_spaces_in_line, account_for_stripped_whitespace, strip_tags | induction over the runs |
| C20 R, C21 R | identify_journals, identify_ibids, identify_report_numbers | invariant `marked` over the masking loops; completeness of the matcher |
| C22, C23 R | identify_and_tag_DOI, identify_and_tag_URLs | span replacement lemmas; completeness of the matcher; DoiProofs.v: grammar of DOIs, its reading of a line is unique and is the one computed |
| C24 | remove_reference_line_marker | static analysis of the 14 patterns |
| C25 R, C26 | rebuild_reference_lines | loop invariant |
| C27 R, C28 R | find.py | loop invariants |
| C29 R | documents/text.py page functions | index arithmetic, filter specification |
| C30 R | get_kbs with mutable cache | state machine over call histories |
| C31 R, C32 | build_journals_kb, order_reportnum_patterns_bylen | sorting lemmas |
| C33 R | clean_pdf_file on byte lists | case analysis |
| C34, C35 R | extract_references_from_file, pdf.py | list induction; PdfOrder.v: the sort by position, and the loop over the links of a page with two columns |
| C36 R, C37, C38 | entry points | case analysis over all oracle outcomes |
| C39 R | find_substring_ignore_special_chars, cut_substring_with_special_chars | two index spaces related by induction |
| C40 R | wash_line, repair_broken_urls, wash_and_repair_reference_line | per-substitution lemmas (WashProofs.v, WashMore.v); ScanProofs.v: a pattern that takes what a function `ahead` says is a left-to-right scan, hence `washed`; UrlRepair.v: words with white space between the letters, deleting spaces keeps joined words joined |
| C42 R, C43 R | extract_references_from_fulltext | composition of C25, C27-C29 |
| C44 R | process_reference_line, add_tagged_* | relation on the items and the rest of the line, induction over the items |
| C45 R | identify_and_tag_authors | relation on the matches, induction from the last to the first |
| C46 R | remove_year, add_year_elements | language of the three patterns; greedy runs of white space |
| C47 R | look_for_implied_ibids | elements that are no authors are in one citation only (splitter invariant); relation on the citations |
| C48 R | remove_leading_garbage_lines | language of the e-mail pattern; induction on the lines |
| C49 R | look_for_books | first element of its type; list.remove finds it by value |
| C50 R | test_for_blank_lines_separating_reference_lines, rebuild_reference_lines without a marker | the scan counts blocks; invariant of the loop over the lines |
| C51 R | look_for_hdl, look_for_hdl_urls | language and greediness of re_hdl; completeness of finditer; permutation under list.index by value |
| C52 | build_journals_kb, build_books_kb, upper | full upper case has no letter with a different upper case (table check over all runs); invariants of the builders; static checks of the shipped tables by vm_compute |
| C53 | build_references, add_subfield, parse_references | table of contributions per type of element; fold of add_subfield = grouping of contributions by field |
| C54 R | tag_quoted_text, tag_isbn, tag_atlas_conf, wash_volume_tag | language with captures of a pattern (rd, CaptureLang.v), equivalent to the matcher; re_sub = leftmost replacement (tagged); greedy parts are maximal |
| C55 R | tag_arxiv, tag_arxiv_more and their patterns | as C54; the patterns of all years 2013-2100 and of all archives equal a common form (vm_compute over the tables, proofs over the form) |
| C56 R | tag_pos_volume | as C54; the longest class run with which the rest can be read (peel_longest) |
| C57 R | find_numeration, find_numeration_more, extract_series_from_volume and the 15 patterns of numerations | grammar of parts with fields (NumGrammar.v), equal to the language with captures of each pattern (NumProofs.v); what the matcher's preferences guarantee about the end of the text read (NumTail.v); the readings of the usual forms by inversion of the grammar (NumForms.v) |
| C58 | remove_reference_line_marker, get_reference_section_beginning, find_numeration, find_end_of_reference_section and the 14 + 28 + 3 + 20 patterns of markers, titles, numbers and following titles | grammar of parts (SectGrammar.v), equal to the language with captures of each pattern, the groups without a name left out (SectProofs.v, `reads_on`); the forms of markers are deterministic (`det`), so the grammar alone decides the result (SectUse.v); the end of the section for any form of markers (SectEnd.v); the cuts by `cut_at`, the marker being searched in the line (Shift.v moves a match inside a text to the start of its rest; SectCut.v) |
| C59 | identify_report_numbers, build_reportnum_kb (keys) | the sort is strictly descending for distinct keys, so the categories before one are those greater than it; invariant of the loop with the report numbers of each category (ReportProofs.v, `winv`) |
| C60 | parse_tagged_reference_line, map_tag_to_subfield, convert_unusable_tag_to_misc and the patterns of tags and of numerations behind titles | a writer of lines and the elements expected (BackGrammar.v), independent of the parser; the patterns equal the grammars (BackNum.v); one reading only, by decoding at the opening brackets (BackRead.v); the first tag of a written line is the one written, then induction over the items (BackProofs.v) |
| C61 R | identify_and_tag_collaborations, build_collaborations_kb, the shipped collaborations.kb | what names a collaboration, as texts (CollabGrammar.v); the 27 compiled patterns equal one form by computation, and this form reads exactly those texts and takes the longest (CollabProofs.v); the loop from the right equals a substitution from the left; a tag put in leaves the line without nested tags (CollabNest.v), so induction over the collaborations. Refuted: the name alone before punctuation |
| C62 | look_for_undetected_books, search_for_book_in_misc, is_unknown_citation, year_from_citation | the result as a relation on citations (BookMisc.v), by induction over titles, elements and citations; finding and cutting from C39, removing the year from C46; author objects shared by two citations are excluded by hypothesis |
| C63 | build_reportnum_kb, institute_num_pattern_to_regex, create_institute_numeration_group_regexp_pattern and identify_report_numbers for the shipped report-numbers.kb | the forms of numbers as a grammar of texts (ReportGrammar.v), the table of institutes, categories and forms in ShippedForms.v; the compiled patterns equal, by computation, those written from the table; the matcher on such a pattern is a search through a list of readings in order (ReportForms.v), by induction on the forms and the text; composed with C59; one category has an underscore and is silent on lines without C_V (ReportLine.v) |
| C64 | build_publishers_kb, identify_publishers for the shipped publishers.kb | [named_at] says where a name stands (PubGrammar.v); the compiled patterns equal, by computation, a name between word boundaries; no name overlaps itself and longer names come later in the table, both computed; induction on the table and on the texts found (PubProofs.v) |
| C64 R | a publisher is tagged once | witness "A. Bee, Kluwer Academic, 1999": the names KLUWER ACADEMIC and ACADEMIC are both found (tag.py 1316-1325 records every start), and the loop of process_reference_line (tag.py 259-308) puts both; the text before the second is the empty slice reading_line[startpos:true_replacement_index] |
| C65 | identify_journals with the table of build_journals_kb | [title_marked] and [titles_marked] (TitleFound.v) say which places are noted and what the line becomes, in terms of [recognisable] of C21; induction on the text with the matcher's soundness and completeness for the two forms of pattern (KbProofs.v), then on the titles; the places are distinct because what is masked has no title |
| C65 R | a title at the end of a line is found | witness "SEE PHYS LETT": both patterns end with a character (\W, [^A-Z0-9]; kbs.py 484-560), which is missing at the end |
| C66 | tag_reference_line with identify_journals_re, identify_report_numbers, identify_journals, identify_ibids, identify_publishers and get_replacement_types, shipped tables | C66_ibids: each object of the search is an [ibid_text] with the longest end (captures of CaptureLang.v) and the objects cover every ibid (RegexLang.v), so that membership is [whole_ibid]; C66_recognised composes this with C63, C64 and C65 along the line each pass leaves; C66_kinds by the lookup after each insertion and the order of the dictionary (TagRebuild.v) |
| C66 R | an ibid is a word of its own | witness "T. Shibid 13 (2000) 5" behind a journal: in `(-\|\b)?IBID(EM)?\.?` (regexs.py 464) the question mark makes the word boundary optional; process_reference_line then puts the last title for the end of the name |
| C67 | convert_PDF_to_plaintext (the lines, not the command), get_plaintext_document_body, the two tries of extract_references_from_file, source.split, extract_journal_reference | FileText.v: the longest white space before a page break by loop_longest (DoiProofs.v); the two tries as equalities between runs with different pdftotext; uniqueness of the lines |

### The witnesses, traced through the code

* C04: `sum_2_dictionaries` (tag.py 1056) tests `"key" in dict_out`, the literal word and not the variable, so it always assigns and never
  adds; the counts returned are those of the last line.
* C06: `split_needed` (engine.py 301) exempts report numbers and collaborations altogether, not only adjacent ones; two report
  numbers with a journal between them stay together.
* C07: with two authors `postpone_last_auth` pops the last one at a semicolon; when the next citation has an author of its own and the
  reason was "semicolon", the postponed one is not inserted and is gone.
* C08: `roman2arabic` uses `(2*p) mod n`; VX gives 15, not 5.
* C09: `handle_special_journals` calls `int(page)` after `isdigit()`, which is true of superscript two, on which `int` raises; and it
  assigns `misc_txt` (engine.py 157) instead of adding to it.
* C10: `mangle_volume` matches a digit string and one letter at the beginning of the volume and drops the rest of it.
* C11: `add_year_elements` stops at the first JOURNAL, with or without a year; a BOOK after it is not looked at.
* C15: a text containing `<cds.URL />` itself makes `parse_tagged_reference_line` take `identified_urls[0]` of an empty list.
  `handle_special_journals` as in C09. `look_for_books` and `search_for_book_in_misc` (engine.py 237, 722) read `line[2]`; lines 48, 190, 191,
  192, 359, 366, 527, 590, 652, 791, 1247, 1473 and 2280 of books.kb have two columns, so quoting one of these titles, or having it in the
  misc text of an otherwise unrecognised citation, stops the whole extraction. `identifiy_journals_re` (tag.py 442) records the
  matched text, and `add_tagged_journal` looks it up in the table of titles, into which the patterns are entered (tag.py 123).
  `identify_and_tag_authors` (tag.py 899-911) goes on with the line in ASCII when more authors are found in it; unidecode writes U+00AB as `<<`,
  so a guillemet before `cds.URL />` becomes the tag. The witness has a name with a diaeresis that stands alone, which unidecode drops.
* C17: `map_tag_to_subfield` (engine.py 1356) takes `line.find(closing)` = -1 for a position; the text up to the length of the
  closing tag is lost.
* C18: `add_tagged_publisher` (tag.py 687) adds the length of the match in the squeezed line to the translated start;
  `identifiy_journals_re` searches the unsqueezed line, but its positions are translated like the others; the positions are
  those of `line.upper()`.
* C19: `strip_tags` (tag.py 850) masks `<cds.X>...</cds.X>` first; a tag inside it leaves `/>` patterns that are matched across.
* C20: the shipped pattern `w+` becomes `\w+`, which reads underscores put in by the previous report number.
* C21: titles are tried by length over the whole line, so a longer title further on masks the end of a shorter one before it can
  be tried.
* C23: links are masked by underscores (tag.py 1375-1395) before bare URLs are searched; an address adjacent to a link runs
  on into the underscores.
* C25: `prepare_ref` (text.py 221) drops the lines after the 25th; when `int` of the first marker raises ValueError the handler passes and
  `marknum` is unbound.
* C27: `find_end_of_reference_section` (find.py 367) assigns the match of the keyword patterns and does not test it; for each blank
  line it increases the number of digit lines required.
* C28: `find_reference_section` (find.py 45) goes backwards and goes on after a title without a marker, overwriting its result, so the
  first title of the document wins.
* C29: with more than four pages `get_number_header_lines` (documents/text.py 256) compares every other page only.
* C30: `get_kbs` (kbs.py 55) records the input before loading; a failing load leaves the old content under the new
  input. `tag_reference_line` writes the regular-expression titles into the cached table. Paths are compared, not contents.
* C31: `build_journals_kb` adds the standard title of a row as a key unless present; another row can define it differently.
* C33: `clean_pdf_file` (engine.py 1448) maps an empty file (ValueError), and uses the position of `%%EOF` also when it is -1 or before
  the header (moves, truncates, or resizes to 0).
* C35: `_match_urls_with_reference` (pdf.py 119) accepts a link on the second page for the first reference as well.
  With two columns: the list of links is cut only when the loop breaks, so a link already given to a key is still there for the
  lowest key of the left column, where `is_in_new_column` accepts a link of the left column above it. A link of the right column between
  the heights of two keys of the left column is skipped, and cut off when the loop then breaks at a lower one. For the only key of the left column
  a link above it that is below the first key of the right column breaks the loop (`is_url_for_next_reference`).
* C36: `os.close` stands before the `try` (api.py 57-100).
* C39: `s.upper()` may be longer than `s`, but its positions index `s` (engine.py 779-819); an empty cleaned title is found at
  0 and `clean_sub[0]` raises.
* C40: `wash_line` removes `,\s:` and `:\s:` with their punctuation; the hyphen pattern contains the text `\255`.
* C42, C43: as C25; a title followed by the first marker on the same line gives `None` as marker pattern.
* C44: `add_tagged_journal` (tag.py 578) moves `startpos` behind the numeration; the next title's index may be smaller, the slice between
  is empty, and its numeration is read from behind that title again.
* C45: `identify_and_tag_authors` (tag.py 888) writes the semicolon back when the text behind the group begins with one, without having
  removed it. The weaker pattern ends in `$` followed by a look-ahead for further text.
* C46: `remove_year` (regexs.py 1105) substitutes `\s*2005\s*` by the empty string, one pass from the left.
* C47: `find_numeration` (engine.py 481) is called once per element and matches at the beginning only.
* C48: `"".isspace()` is False and `re.match(r"^\s*e-?mail", line)` has no flags (engine.py, remove_leading_garbage_lines).
* C49: `citation_elements.remove(title)` (engine.py 241) removes the quoted element with its `misc_txt`.
* C50: api.py splits the source at "\n", so `"".isspace()` is False for blank lines (text.py 325-); on a second blank line
  `working_ref` is the blank line before it and is appended as a reference.
* C51: `(?P<hdl_id>[^\s]+/[^\s]+)` (regexs.py 837) takes punctuation; `citation_elements.index(el)` (engine.py 583) compares by value.
* C54: `re_isbn` (regexs.py 306) is compiled with `re.VERBOSE`, which ignores the spaces of "International Standard Book Number"; only
  "InternationalStandardBookNumber" is recognised. In `(?:|10|13)` the empty alternative comes first, so
  "ISBN-13-9780306406157" gives the code "13-9780306406157".
* C55: `V(?P<version>\d)` (regexs.py 92) reads one digit of a version, so "arXiv:1207.1234v12" leaves "2" in the line. The table of old archives maps
  "ep-th" to "hep-ph" (regexs.py 202).
* C56: in the form with the year first, `\s(?:19|20)\d{2}\s` reads the blank behind the year and `re_sep` needs another one. The pattern
  `POS` (regexs.py 55) has no word boundary before it.
* C57: `find_numeration_more` (tag.py 451) takes the series from the text of the volume only and does not look at the group `series` of its second
  pattern, as `find_numeration` (tag.py 1108) does.
* C61: kbs.py 569 puts `\s` for the blank of "CMS Collaboration" and then makes only the word optional, so the pattern is `CMS\s(?:\s*coll...)?`: "[CMS],"
  and "CMS, " are not recognised, "[CMS ]," is. The opening bracket, "the" and "and" before the name are part of the match and are lost from the line.

## Validation of the model

The model was evaluated inside Coq (vm_compute) on inputs of the test-suite of the repository (tests/*.py) and the
outputs compared with the expectations written there; the examples beside the theorems are computed too.

The theorems are tested by mutation: `seeded/LOG.jsonl` records realistic edits of the model, made in a copy outside this
directory, the claims they break, and the theorems whose proofs failed.

## Trusted base

* Coq's kernel (with its virtual machine, used by `vm_compute`).
* `Print Assumptions` after every theorem prints "Closed under the global context".
* The faithfulness of the transcription, in particular of the regex matcher and pattern parser to CPython's `re`, and of the tables
  in `UnicodeTables.v` and `Uppercase.v`.
* Universally quantified, so nothing is assumed of them: `env` (unidecode, unquote, the author patterns, the current year,
  `replace_undesirable_characters`), `services` (libmagic, file reading, pdftotext, pypdf, iteration order of sets), `files`
  (contents of knowledge base files), the linker callback (a function of the number of the call and its argument), the
  records of a download. C15_no_index_error, C15_no_exception, C15_journal_no_exception and C52_no_index_error have hypotheses about them (`writing`,
  `replaces_plainly`, `sound_env`): unidecode is a table of characters that leaves ASCII alone, as its documentation says, and the
  undesirable characters are replaced by characters other than "<" (inspire_utils is not in the repository). C15_plain_case meets all of them.
