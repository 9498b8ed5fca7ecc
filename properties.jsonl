{"id": "C01", "title": "Every reference line yields at least one reference, in order, with its raw text", "statement": "Whenever reference extraction from a list of reference lines succeeds, the returned list is the concatenation, in line order, of one non-empty block per line, and every reference of the block of a line carries raw_ref = [that line] verbatim.", "quantifier": "all lists of reference lines, all knowledge bases, all linker callbacks, all outcomes of the recognisers", "why_tests_cant": "A test fixes a few lines; losing, reordering or mislabelling a line depends on the combination of recognised elements in that line.", "anchors": ["refextract/references/engine.py:parse_references", "refextract/references/engine.py:parse_references_elements", "refextract/references/engine.py:split_citations_iter", "refextract/references/record.py:build_references", "refextract/references/record.py:build_reference_fields"]}
{"id": "C02", "title": "Extraction is compositional in the lines", "statement": "The references extracted from the concatenation of two lists of lines are the concatenation of the references extracted from each list (no state leaks from one reference line to the next), for a callback whose answer depends only on the element.", "quantifier": "all pairs of lists of lines, all knowledge bases, all pure callbacks", "why_tests_cant": "State leaking across lines (ibid, author, DOI, URL lists) shows only for particular adjacent lines.", "anchors": ["refextract/references/engine.py:parse_references_elements", "refextract/references/engine.py:parse_reference_line", "refextract/references/record.py:build_references"]}
{"id": "C03", "title": "Output fields are non-empty and clean", "statement": "In every returned reference every field other than raw_ref is a non-empty list of non-empty strings; every misc value neither starts with one of '])} ,.' nor ends with one of '[({ ,.'; linemarker, when present, has exactly one value which has no surrounding brackets, dots or spaces.", "quantifier": "all element lists, line markers, raw strings and reference formats", "why_tests_cant": "Quantifies over all combinations of elements and all strings.", "anchors": ["refextract/references/record.py:build_reference_fields", "refextract/references/record.py:add_subfield", "refextract/references/record.py:create_reference_field", "refextract/references/record.py:format_marker"]}
{"id": "C04", "title": "Statistics are the totals over all lines", "statement": "One expects the counters returned with the references of a list of lines to be the sums of the counters of the individual lines. This is false of the code (refuted by a witness); what holds for every list of lines is that they are the counters of the last line alone.", "quantifier": "all lists of lines", "why_tests_cant": "The total of a one-line input is always right; the defect needs two or more lines.", "anchors": ["refextract/references/engine.py:parse_references_elements", "refextract/references/tag.py:sum_2_dictionaries", "refextract/references/engine.py:build_stats"]}
{"id": "C05", "title": "Splitting a line into citations keeps every non-author element", "statement": "Concatenating the citations produced from a line gives back all elements of the line other than authors, each once and in the original order, with the text around the split semicolons recoverable by joining with ';'.", "quantifier": "all lists of recognised elements", "why_tests_cant": "Depends on the interleaving of types, semicolons and authors over an unbounded list.", "anchors": ["refextract/references/engine.py:split_citations_iter", "refextract/references/engine.py:split_needed", "refextract/references/engine.py:postpone_last_auth"]}
{"id": "C06", "title": "A citation never mixes two papers", "statement": "No citation produced by splitting contains two elements of the same type (two journals, two DOIs, ...) other than authors, misc text, report numbers and collaborations; old-style arXiv numbers count as one type. For report numbers and collaborations one expects that only adjacent ones stay together; that part is false of the code (refuted by a witness). And a line is split nowhere else: a line without semicolons in which no such type is repeated is one citation with all its elements in their order, and in a line without semicolons and authors every further citation begins with an element whose type is that of an element of the citation before, and is neither a report number (other than arXiv) nor a collaboration.", "quantifier": "all lists of recognised elements", "why_tests_cant": "Unbounded lists of elements.", "anchors": ["refextract/references/engine.py:split_citations_iter", "refextract/references/engine.py:split_needed"]}
{"id": "C07", "title": "No author is lost when a line is split", "statement": "One expects every author group recognised in a line to appear in one of the citations the line is split into. This is false of the code (refuted by a witness): the last author group of a citation closed at a semicolon is lost when the next citation has its own. It holds for every line whose elements carry no semicolon in their misc text.", "quantifier": "all lists of recognised elements", "why_tests_cant": "The loss needs two author groups before a semicolon split and an author after it.", "anchors": ["refextract/references/engine.py:split_citations_iter", "refextract/references/engine.py:postpone_last_auth"]}
{"id": "C08", "title": "Roman volumes are converted to the number they denote", "statement": "A volume written with the letters I, V, X in either case is replaced by the decimal numeral of the sum of its letters less two for every I directly before a V or X; on canonical numerals in any mix of cases this is the number written; every other volume is left unchanged (a line feed after the letters is accepted too). The usual rule, subtracting every smaller letter before a larger one, is not the one implemented (refuted by a witness: VX).", "quantifier": "all volume strings", "why_tests_cant": "The formula is an obfuscated modular-arithmetic one-liner; tests sample a few numerals.", "anchors": ["refextract/references/engine.py:roman2arabic", "refextract/references/engine.py:format_volume"]}
{"id": "C09", "title": "Special journals get year-prefixed, zero-padded volumes and pages", "statement": "For a journal whose title is in the special-journals list, a volume of one or two digits becomes the two last digits of the year followed by the volume padded to two digits, a decimal page is padded to three digits, a journal without year whose page looks like a year becomes misc text, and all other elements and fields are unchanged. One also expects that the step never raises; this is false of the code (refuted by a witness): it raises ValueError exactly when the page consists of characters that isdigit() accepts and int() does not, or has more than 4300 digits. The misc text of the element is lost when its page looks like a year (refuted by a witness).", "quantifier": "all elements, all special journal lists", "why_tests_cant": "Python's isdigit/int disagree on some Unicode digits, which no test input contains.", "anchors": ["refextract/references/engine.py:handle_special_journals"]}
{"id": "C10", "title": "Reformatting a volume keeps all its characters", "statement": "Moving the series letter of a volume in front of the number keeps the characters of the volume when nothing follows the letter; one expects this for all volumes, but it is false of the code (refuted by a witness): what follows the letter is dropped. Moving the series from the title to the volume keeps all characters but the semicolon; the B is dropped from the volume of the supplements of Nuclear Physics only.", "quantifier": "all volume strings", "why_tests_cant": "Loss shows only for volumes with characters after the letter.", "anchors": ["refextract/references/engine.py:mangle_volume", "refextract/references/engine.py:split_volume_from_journal", "refextract/references/engine.py:remove_b_for_nucl_phys"]}
{"id": "C11", "title": "One year per reference, journal year first", "statement": "Every reference gets at most one year, and that year is the year of a journal or book of the reference or was found in its text; no year is invented. One also expects the first year of a journal or book to win over a year in the text; that part is false of the code (refuted by a witness).", "quantifier": "all citations", "why_tests_cant": "Depends on the order and mixture of element types.", "anchors": ["refextract/references/engine.py:add_year_elements", "refextract/references/engine.py:year_from_citation", "refextract/references/regexs.py:remove_year"]}
{"id": "C12", "title": "At most one author group and one DOI per reference, collaborations distinct", "statement": "After the clean-up steps every reference has at most one author element and at most one DOI, and no collaboration twice; the text of a surplus author group is kept in the misc text.", "quantifier": "all citations", "why_tests_cant": "Quantifies over arbitrary element lists; in-place removal while iterating is easy to get wrong.", "anchors": ["refextract/references/engine.py:remove_duplicated_authors", "refextract/references/engine.py:remove_duplicated_dois", "refextract/references/engine.py:remove_duplicated_collaborations"]}
{"id": "C13", "title": "The linker callback decides the recid", "statement": "Each reference gets at most one recid, it is the first truthy answer of the callback over the elements of the reference; a callback raising IndexError or KeyError counts as 'no recid'; any other exception reaches the caller.", "quantifier": "all callbacks, all citations", "why_tests_cant": "The callback is arbitrary user code.", "anchors": ["refextract/references/engine.py:associate_recids", "refextract/references/engine.py:add_recid_elements", "refextract/references/engine.py:parse_reference_line"]}
{"id": "C14", "title": "The tagged line parser terminates and never fails on its own tags", "statement": "Parsing a tagged line terminates, and does not raise when the line has no more URL and DOI tags than identified URLs and DOIs.", "quantifier": "all tagged lines, all URL/DOI lists", "why_tests_cant": "Termination and index safety over all strings.", "anchors": ["refextract/references/engine.py:parse_tagged_reference_line", "refextract/references/engine.py:map_tag_to_subfield"]}
{"id": "C15", "title": "Reference text cannot crash the extraction", "statement": "With consistent knowledge bases (every search phrase has a pattern and a title, patterns for titles are plain words, report number and collaboration patterns always have the group that is read, books have three columns and a title with a letter or digit), author patterns with their groups, a linker raising IndexError or KeyError only and a format of journal fields, extraction from any text with lines of at most 4300 characters returns normally or raises IndexError or ValueError, and ValueError only when there are special journals; the same holds for the extraction of a single journal reference. One expects it to return normally for every text. This is false of the code (refuted by witnesses): a text that contains one of the internal tags <cds.URL /> or <cds.DOI /> raises IndexError; a special journal with a superscript page raises ValueError; with a row of two columns as 13 rows of the shipped books.kb are, a reference to that book raises IndexError; with a title pattern that is no plain word a matching text raises KeyError. A text without \"<\" raises no IndexError, and nothing at all when there are no special journals, if unidecode works character by character, leaves ASCII alone and writes no character of the text or of the knowledge bases (other than \"<\") with a \"<\", no title, publisher or report number of the knowledge bases has a \"<\" and no correction of a name makes a tag. The condition on unidecode is needed (refuted by a witness): it writes a left guillemet as \"<<\", so that a guillemet followed by cds.URL /> becomes an internal tag and raises IndexError.", "quantifier": "all strings, knowledge bases, linkers and formats satisfying the conditions", "why_tests_cant": "Crashing inputs (literal internal tags, unusual digits) are not in any test corpus.", "anchors": ["refextract/references/engine.py:parse_tagged_reference_line", "refextract/references/engine.py:handle_special_journals", "refextract/references/engine.py:search_for_book_in_misc", "refextract/references/tag.py:tag_reference_line", "refextract/references/api.py:extract_references_from_string"]}
{"id": "C16", "title": "Counters agree with the recognised elements", "statement": "For every parsed line, the counters report exactly the numbers of journals (including ibids), report numbers, URLs, DOIs and author groups that were recognised.", "quantifier": "all tagged lines", "why_tests_cant": "Unbounded number of tags in any order.", "anchors": ["refextract/references/engine.py:parse_tagged_reference_line", "refextract/references/engine.py:build_stats"]}
{"id": "C17", "title": "Untagged text is never dropped by the tagged line parser", "statement": "The text of a tagged line outside the tags is kept, in order, in the misc text of the elements, and every tag with a content gives one element that carries the content and the text gathered before it; only spaces, dots, semicolons and commas at the very end are dropped. This holds when the QUOTED, ISBN, PUBLISHER and COLLABORATION tags are closed. One expects it for every line; this is false of the code (refuted by a witness): after an unclosed tag of these kinds as many characters as the tag has are lost, and nothing more is lost.", "quantifier": "all tagged lines", "why_tests_cant": "Dropping happens for unclosed tags and for particular tag sequences.", "anchors": ["refextract/references/engine.py:parse_tagged_reference_line", "refextract/references/engine.py:map_tag_to_subfield", "refextract/references/engine.py:convert_unusable_tag_to_misc"]}
{"id": "C18", "title": "Positions found in the whitespace-squeezed line denote the same characters of the original line", "statement": "Collapsing runs of white space is recorded so that positions can be translated back: a journal title or report number found at a place of the squeezed line is translated to the start and end of exactly the corresponding characters of the line (with any runs of white space inside). One expects the same of every recognised item; this is false of the code (refuted by witnesses): the end of a publisher is not translated, so the last letters of its name stay in the line; titles found by the regular expressions of the knowledge base are positions of the line before squeezing, taken for positions after it; and the positions are those of the upper-case line, which can be longer.", "quantifier": "all lines, all match positions and lengths", "why_tests_cant": "Off-by-one errors depend on the number, size and place of the runs.", "anchors": ["refextract/documents/text.py:remove_and_record_multiple_spaces_in_line", "refextract/references/tag.py:account_for_stripped_whitespace"]}
{"id": "C19", "title": "Masking recognised tags does not move the rest of the line", "statement": "When no tag stands inside another one, masking recognised tags by underscores keeps the length of the line, changes nothing but the tags, and leaves no tag, so later positions refer to the same text. One expects this for every tagged line; this is false of the code (refuted by a witness): with a URL or DOI inside quotes and another tag after it the masked line is shorter and a journal behind it is not recognised.", "quantifier": "all tagged lines", "why_tests_cant": "Only nested tags break it; the code comment claims they do not occur.", "anchors": ["refextract/references/tag.py:strip_tags", "refextract/references/tag.py:tag_quoted_text"]}
{"id": "C20", "title": "Recognised journals, ibids and report numbers do not overlap", "statement": "The spans reported for journal titles, ibids and report numbers are inside the line, pairwise disjoint (also between the three kinds), each carries the text at that place, and the returned line differs from the input exactly by underscores on those spans; the counts of titles equal the numbers of spans; no IBID is left. This holds for titles that are not empty and have no underscore and for report number patterns that read no underscore (all but one of the 335 shipped ones). One expects it for every knowledge base; this is false of the code (refuted by a witness): a numeration pattern with w+ reads the underscores of another report number.", "quantifier": "all lines, all knowledge bases", "why_tests_cant": "Knowledge bases with overlapping titles are user supplied.", "anchors": ["refextract/references/tag.py:identify_journals", "refextract/references/tag.py:identify_ibids", "refextract/references/tag.py:identify_report_numbers"]}
{"id": "C21", "title": "Longest journal title wins", "statement": "Wherever a title of the knowledge base could be recognised in a line, a title at least as long is reported that overlaps or touches it; so a reported title never hides a longer one at its place unless a still longer title takes part of that one. One expects the longest title at every place to be the one reported there; this is false of the code (refuted by a witness): a longer title further on can take its end.", "quantifier": "all lines, all knowledge bases", "why_tests_cant": "Needs all pairs of overlapping titles.", "anchors": ["refextract/references/tag.py:identify_journals", "refextract/references/kbs.py:build_journals_kb"]}
{"id": "C22", "title": "DOIs are replaced by tags without touching other text", "statement": "Tagging DOIs replaces exactly the recognised DOI texts by one tag each: the line is kept pieces with the recognised texts between them, and the returned line is the same kept pieces with one tag between each two; the DOIs returned are those of the recognised texts in order, each text being an optional prefix and the DOI; and every place where a DOI begins (10., three to seven digits, a slash and two characters of a DOI) lies in a recognised text. Exactly: a line is read from the left; the first place where a lead (nothing, 'doi' with optional parentheses, colon and spaces, or http(s)://(dx.)doi.org/ in any case) and a DOI (10., three to seven digits, parts of a full stop and word characters, a slash or %2f, and at least two DOI characters, the last not a full stop) begin is replaced by one tag, the DOI goes on until only full stops and then no DOI character follow, a DOI containing %2f is returned decoded, and the reading goes on behind it; the result is the only one that these rules allow.", "quantifier": "all lines, all environments", "why_tests_cant": "All numbers and positions of DOIs.", "anchors": ["refextract/references/tag.py:identify_and_tag_DOI", "refextract/references/regexs.py:re_doi"]}
{"id": "C23", "title": "URLs are replaced by tags without touching other text", "statement": "When every HTML link of a line stands at its beginning, after a space or after an opening bracket, comma, semicolon or exclamation mark, tagging URLs replaces exactly the recognised texts by one tag each, returns one URL for each in order, with the address and the description read from the text, and leaves no place where an address begins untagged. One expects this for every line; this is false of the code (refuted by a witness): a bare URL directly before a link takes the underscores that hide the link, so that there is one tag for two URLs, one URL is made up, and text after the link is lost.", "quantifier": "all lines", "why_tests_cant": "Adjacent raw and HTML URLs interact.", "anchors": ["refextract/references/tag.py:identify_and_tag_URLs"]}
{"id": "C24", "title": "The reference marker is split off without losing text", "statement": "Removing the numeration marker of a line splits the line, apart from white space, into marker and rest.", "quantifier": "all lines", "why_tests_cant": "14 marker patterns over all strings.", "anchors": ["refextract/references/engine.py:remove_reference_line_marker", "refextract/references/regexs.py:get_reference_line_numeration_marker_patterns"]}
{"id": "C25", "title": "Rebuilding broken reference lines loses no text", "statement": "Joining the physical lines of a reference section into references cuts the text into blocks without loss; each reference consists of the first 25 lines of its block, which lose nothing but white space and hyphens at line ends. With at most 25 lines all other characters are kept in order. It never fails without a marker pattern, with an unnumbered one, or with the patterns of the code if no line is longer than 4300 characters. One expects no loss and no failure at all; this is false of the code (refuted by witnesses): later lines of a long reference are dropped, and a first marker with more than 4300 digits raises UnboundLocalError.", "quantifier": "all lists of lines, all marker patterns", "why_tests_cant": "The effect depends on the whole sequence of lines and markers.", "anchors": ["refextract/references/text.py:rebuild_reference_lines", "refextract/documents/text.py:join_lines"]}
{"id": "C26", "title": "Numbered references are split only at consecutive numbers", "statement": "With a numbered marker pattern the section is cut exactly at the first marker of a line that has the number 1, then at the next one with the number 2, and so on; markers with other numbers start no reference.", "quantifier": "all lists of lines", "why_tests_cant": "History dependent.", "anchors": ["refextract/references/text.py:rebuild_reference_lines"]}
{"id": "C27", "title": "The end of the reference section is inside the document", "statement": "For a start line inside the document the end lies between start and the end of the document; it is the first line that is the title of a following section (matches a title pattern, and none of the next 199 lines has a marker continuing the numbering), or the line after the first of four successive lines of more than ten digits, or the end of the document. It never fails. One expects the keyword patterns and graph axes in double-spaced text to end the section too; this is false of the code (refuted by witnesses).", "quantifier": "all documents, all start lines", "why_tests_cant": "Loop over all document shapes.", "anchors": ["refextract/references/find.py:find_end_of_reference_section"]}
{"id": "C28", "title": "The start of the reference section is inside the document", "statement": "The search for the start of the section never fails. A found start is a line of the document. If a line matches a title pattern, the first pattern that matches a line decides: the last title followed by the marker 1 on its line, else the first title with a marker within six lines, else the first title. Otherwise the last line numbered 1 (brackets, then dots, then bare numbers) with the number 2 within the next ten lines, or with fewer than five lines after it, is taken. Nothing is found only if no line qualifies. One expects the last title of the document to be taken; this is false of the code (refuted by a witness).", "quantifier": "all documents", "why_tests_cant": "All document shapes.", "anchors": ["refextract/references/find.py:find_reference_section", "refextract/references/find.py:get_reference_section_beginning"]}
{"id": "C29", "title": "Page furniture removal removes only page furniture", "statement": "Removing page boundaries never fails. If every page is longer than the header and footer lines plus one, exactly the page-break lines, the header lines after each break but the last and the footer lines before each break but the first are deleted and all other lines kept in order; otherwise nothing is. The numbers of header and footer lines are the largest for which the lines of the compared pages agree: both are without words, or they have the same number of words (runs of letters, digits and hyphens), nine tenths of which are both numbers or have the same first and last letter. One expects only lines that agree to be removed; this is false of the code (refuted by a witness): with more than four breaks only every other page is compared.", "quantifier": "all documents", "why_tests_cant": "Index arithmetic over all break positions.", "anchors": ["refextract/documents/text.py:remove_page_boundary_lines", "refextract/documents/text.py:get_number_header_lines", "refextract/documents/text.py:get_number_footer_lines", "refextract/documents/text.py:strip_headers_footers_pagebreaks"]}
{"id": "C30", "title": "Knowledge base requests are independent of the call history", "statement": "In a process in which every earlier call asked for the same journals_re source and all its sources could be loaded, a call returns what it returns in a fresh process, whatever other knowledge bases the earlier calls overrode. One expects this after every history; this is false of the code (refuted by witnesses): after a load that failed the same request succeeds with the knowledge base of an earlier call (or raises KeyError), a call with its own journals_re knowledge base changes the titles of all later calls, and a file changed on disk is not read again.", "quantifier": "all histories of calls, all inputs, all load failures", "why_tests_cant": "A property of histories and of failures in the middle of a load.", "anchors": ["refextract/references/kbs.py:get_kbs", "refextract/references/kbs.py:load_kb", "refextract/references/tag.py:tag_reference_line"]}
{"id": "C31", "title": "Journal knowledge base is complete and ordered longest first", "statement": "The phrases searched are exactly those of the search terms and of the standard titles of the rows, longest first. The phrase of a search term is mapped to the title of the last row that has it, and is found in a text exactly where no word character stands before it and a non-word character after it. The phrase of a standard title that is no search phrase is mapped to the first such title and is found exactly at a word boundary not after a slash and before a character that is not an ASCII capital or digit. One expects a standard title to stand for itself; this is false of the code when another row has it as search term (refuted by a witness).", "quantifier": "all journal knowledge bases", "why_tests_cant": "User-supplied dictionaries.", "anchors": ["refextract/references/kbs.py:build_journals_kb"]}
{"id": "C32", "title": "Report number patterns are ordered by length", "statement": "Reordering report-number patterns is a stable permutation by decreasing length.", "quantifier": "all lists of patterns", "why_tests_cant": "Unbounded lists.", "anchors": ["refextract/references/kbs.py:order_reportnum_patterns_bylen"]}
{"id": "C33", "title": "Cleaning a PDF keeps the document", "statement": "Cleaning a file keeps exactly the bytes from the first '%PDF-' to the end of the last '%%EOF' when both are present in this order, and is then idempotent; it leaves alone every non-empty file without '%PDF-' and every file that begins with '%PDF-' and has no '%%EOF'. One also expects that it never fails or destroys a file; this is false of the code (refuted by witnesses): for every other file (empty, or with a later '%PDF-' whose '%%EOF' is absent or comes before it) it raises, truncates the file to at most three bytes, or empties it.", "quantifier": "all file contents", "why_tests_cant": "All byte strings; the destructive cases are malformed PDFs.", "anchors": ["refextract/references/engine.py:clean_pdf_file"]}
{"id": "C34", "title": "PDF keys and links are attached only when they line up", "statement": "Texkeys and link URLs are added to the extracted references either for all references, in order, when the numbers agree, or not at all; nothing else in the references changes and no URL appears twice.", "quantifier": "all extracted references, all PDF annotation data", "why_tests_cant": "Depends on the two lengths.", "anchors": ["refextract/references/api.py:extract_references_from_file", "refextract/references/record.py:update_reference_with_urls"]}
{"id": "C35", "title": "A link annotation is attributed to one reference", "statement": "Only URLs of link annotations of the PDF are reported, with one entry per citation destination. The keys are in reading order: if three keys in right halves of pages begin at the same distance from the left edge, by page, half of the page and height, otherwise by page and height. On one column of one page, with no link exactly at the height of a destination, a link is attributed exactly to the lowest destination above it. On one page with two columns, every link of the left column is attributed to the lowest destination of its column above it, if the column has two destinations at least; and for every destination but the lowest of the left column only such links of its own column are reported. In general, what is reported for a destination is on its page or on the next one, and not higher than it, except on a page where a destination of the right half is lower than the link. One expects every link between two destinations to be attributed to exactly one reference in general; this is false of the code (refuted by witnesses): a link on the next page can be given to two references, to none or to a wrong one only, a link of the left of two columns can be given to two references, one of the right column to none, and the only reference of the left column loses its link if there is a link above it.", "quantifier": "all sets of destinations and annotations", "why_tests_cant": "Geometry over unbounded sets.", "anchors": ["refextract/references/pdf.py:extract_texkeys_and_urls_from_pdf", "refextract/references/pdf.py:_match_urls_with_reference"]}
{"id": "C36", "title": "Downloaded files are always removed", "statement": "Extraction from a URL leaves the temporary directory as it was on every outcome of creating the file, of the request, of the response, of every chunk and of the extraction, provided that closing the new descriptor succeeds; if that fails the file stays (os.close stands before the try). The outcome is the first failure, with an HTTP error reported as FullTextNotAvailableError, or that of the extraction from the content downloaded.", "quantifier": "all outcomes of the download and of the extraction", "why_tests_cant": "Every failure point.", "anchors": ["refextract/references/api.py:extract_references_from_url"]}
{"id": "C37", "title": "Batch extraction isolates failures", "statement": "Extracting a list of raw references never raises and returns one result per input, in order; a failing or empty extraction yields the raw text only.", "quantifier": "all input lists, all failures", "why_tests_cant": "Every subset of failing items.", "anchors": ["refextract/extract.py:extract_references_from_list"]}
{"id": "C38", "title": "Journal info extraction is all or nothing", "statement": "Extraction of journal information returns one entry per publication info, in order, or nothing at all if any item failed; it never raises.", "quantifier": "all input lists, all failures", "why_tests_cant": "Every subset of failing items.", "anchors": ["refextract/extract.py:extract_journal_info", "refextract/references/api.py:extract_journal_reference"]}
{"id": "C39", "title": "A book title is found modulo punctuation and cut out exactly", "statement": "For texts in which upper-casing lengthens no character and titles with at least one letter A-Z or digit: searching the title ignoring special characters returns the first place where the text, ignoring case and everything but A-Z and 0-9, continues with the title, and nothing is returned only if there is none; cutting there removes exactly the title with what follows it up to the next space, opening bracket, letter or digit, and keeps the rest, both sides stripped. One expects this of all texts and titles; this is false of the code (refuted by witnesses): a sharp s before the title shifts the cut so that part of the title stays in the text, and a title without such letters (a Greek one) is found in every text and stops the whole extraction with an IndexError.", "quantifier": "all texts and titles", "why_tests_cant": "Two index spaces over all strings.", "anchors": ["refextract/references/engine.py:find_substring_ignore_special_chars", "refextract/references/engine.py:cut_substring_with_special_chars", "refextract/references/engine.py:search_for_book_in_misc"]}
{"id": "C40", "title": "Washing and repairing a line only touches separators", "statement": "Washing a line never lengthens it and keeps, for lines without backslash, all characters but white space, dashes, colons and commas in order; it is the chain of nine passes: white space before a comma, semicolon or full stop goes, a colon or comma with white space and a colon becomes one colon, white space just inside brackets goes, every dash (and the text \\255) becomes a hyphen, every run of white space one space; so no two characters of white space stand side by side afterwards. Repairing broken URLs only removes spaces, and after it no http:// and no ftp://, in capitals or not, has a space between its letters anywhere in the line. In a reference line, after that and after replacing undesirable characters, every comma inside closing quotes is put behind them and every run of white space becomes one space, and nothing else changes. One expects washing to change only white space and dashes and to be idempotent; this is false of the code (refuted by witnesses): ': :' loses a colon, the text \\255 becomes a dash, and washing twice differs from washing once.", "quantifier": "all lines", "why_tests_cant": "25 interacting substitutions over all strings.", "anchors": ["refextract/documents/text.py:wash_line", "refextract/documents/text.py:repair_broken_urls", "refextract/references/text.py:wash_and_repair_reference_line"]}
{"id": "C41", "title": "Normalising report numbers and editors touches one character", "statement": "For every list of elements: format_report_number inserts one dash between the capital letters and the digits of a report number that consists of just those, and changes nothing else; format_hep replaces the dash after one of the six archive names by a slash, changes nothing else, and is idempotent; format_author_ed takes the blank out of every (ed. ) and (eds. ) of the authors, reading from the left, and changes nothing else.", "quantifier": "all lists of elements", "why_tests_cant": "The set of report numbers is unbounded and the rewriting is done by string surgery with computed lengths.", "anchors": ["refextract/references/engine.py:format_report_number", "refextract/references/engine.py:format_hep", "refextract/references/engine.py:format_author_ed"]}
{"id": "C42", "title": "Extracting the references of a text never fails", "statement": "Extracting the reference lines of a text whose lines have at most 4300 characters raises no exception: the status is 4 with no references if no section start is found, else 0, and the references are rebuilt from exactly the lines between the start and the end of the section, without the title and lines repeating it. For longer lines it can fail with UnboundLocalError (witness).", "quantifier": "all lists of lines", "why_tests_cant": "Exceptions depend on combinations of markers, titles and page breaks over unboundedly many lines.", "anchors": ["refextract/references/text.py:extract_references_from_fulltext", "refextract/references/text.py:get_reference_lines"]}
{"id": "C43", "title": "References after a title on the same line", "statement": "One expects the references to be separated when the section title and the first marker are on the same line; this is false of the code (refuted by a witness): the marker pattern then requires the title, so all references are merged into one unless the title is repeated.", "quantifier": "all texts whose section title is on the line of the first marker", "why_tests_cant": "The merging affects every document of this layout; a test shows one.", "anchors": ["refextract/references/find.py:find_numeration_in_title", "refextract/references/text.py:rebuild_reference_lines"]}
{"id": "C44", "title": "A recognised text is replaced by its tag and the rest of the line is kept", "statement": "When a line is rebuilt from the titles, report numbers and publishers recognised in it, every recognised text that begins behind the text already used is replaced by the tag for it (the standard title followed by the tags of the volume, year and page found behind or around it; the preferred report number; the publisher), with the punctuation that belongs to it (a run of \".:-)\" behind a title, one closing bracket behind a report number), an ibid by the previous title; all other characters of the line are kept in order, except the character before a report number. One expects every part of the line to be used once. This is false of the code (refuted by a witness): a title found inside the numeration of another one is tagged as well and its numeration is used twice. The tagged line contains no line end, whatever the line and the knowledge bases contain.", "quantifier": "all lines, all sets of recognised texts and positions", "why_tests_cant": "The interplay of positions, removed spaces, numeration and ibids has unboundedly many combinations.", "anchors": ["refextract/references/tag.py:process_reference_line", "refextract/references/tag.py:add_tagged_journal", "refextract/references/tag.py:add_tagged_report_number", "refextract/references/tag.py:add_tagged_publisher"]}
{"id": "C45", "title": "Author groups are replaced by tags and the rest of the line is kept", "statement": "Tagging authors replaces exactly the groups matched by the author pattern in the masked line (in ASCII if that gives more matches): each becomes one tag of its kind (standard, et al., editors) with the normalised names without punctuation at the ends and stray brackets, groups after \"et al\" are left and a group after \"and\" takes in names missed before it; the rest of the line is kept. One expects the text around the groups to stay and missed authors to be found. This is false of the code (refuted by witnesses): a semicolon behind a group is written twice, and no missed author with the initials first is ever found, so that the author after the \"and\" is lost as well.", "quantifier": "all lines, author patterns and author knowledge bases for which masking keeps the length of the line", "why_tests_cant": "Positions shift with every replacement; tests show single lines only.", "anchors": ["refextract/references/tag.py:identify_and_tag_authors", "refextract/authors/regexs.py:make_auth_regex_str"]}
{"id": "C46", "title": "The year is taken out of the text", "statement": "When a citation has a year, the year is taken out of the texts of all its elements and put in an element of its own. Years in square brackets, in round brackets and bare ones are removed, with the brackets and the white space inside or around them, and nothing else; a text without the year is unchanged. One expects the year to be gone, words to stay apart and only whole numbers to be taken. This is false of the code (refuted by witnesses): \"20200505\" with 2005 gives \"2005\", \"in 2005 by\" gives \"inby\", and 120054 becomes 14.", "quantifier": "all texts and years, all citations", "why_tests_cant": "Overlapping, nested and adjacent occurrences are unboundedly many.", "anchors": ["refextract/references/engine.py:add_year_elements", "refextract/references/regexs.py:remove_year"]}
{"id": "C47", "title": "A numeration after a journal gives a reference to the same journal", "statement": "After a line is split into citations: a citation without a journal after one with a journal gets, for each of its texts that begins with a numeration, a journal element with the title of the last journal before, the volume of the numeration with its own series or else that of the previous volume, and the year, page and last page of the numeration; the numeration is removed from the text. Citations with a journal of their own, or after a citation without one, and all other elements are unchanged. One expects every numeration to give a reference. This is false of the code (refuted by a witness): only the first of several numerations in one text does.", "quantifier": "all lists of elements", "why_tests_cant": "The elements are shared between citations and modified while the citations are traversed; no finite set of lines covers this.", "anchors": ["refextract/references/engine.py:look_for_implied_ibids", "refextract/references/engine.py:split_citations"]}
{"id": "C48", "title": "Only leading blank and e-mail lines are dropped", "statement": "Before references are parsed, lines at the beginning are dropped as long as they consist of white space or begin (after white space) with \"email\" or \"e-mail\"; from the first other line on everything is kept. One expects empty lines and e-mail lines in any spelling to be dropped. This is false of the code (refuted by witnesses): the empty line is not white space for Python, and \"Email\" is not recognised.", "quantifier": "all lists of lines", "why_tests_cant": "Lists of lines of any length and content.", "anchors": ["refextract/references/engine.py:remove_leading_garbage_lines"]}
{"id": "C49", "title": "A quoted title of the table of books gives a book", "statement": "If the first quoted title of a reference, in capitals, is in the table of books, its element is removed and one book element with the authors, the title and the year (without semicolons at its ends) of the row is put at the end; all other elements stay as they are and in order; otherwise nothing changes. Rows of three fields or more never fail. One expects no text of the reference to be lost. This is false of the code (refuted by a witness): the text in front of the quoted title is lost with it.", "quantifier": "all element lists and tables of books", "why_tests_cant": "The table and the line are arbitrary; the removal compares elements by value.", "anchors": ["refextract/references/engine.py:look_for_books"]}
{"id": "C50", "title": "Sections without markers are cut at blank lines or by indentation", "statement": "If no line marker was found: blank lines separate references iff there are more than three blocks of text lines and one of them has two lines or more; then a reference begins exactly at every blank line. Otherwise one begins exactly at every line that begins with neither white space nor a lower case letter, unless the line before ends in a comma, an ampersand or a hyphen. Every reference is its lines joined; no line is lost. One expects paragraphs separated by blank lines to be one reference each. This is false of the code (refuted by witnesses): lines split at their ends (as extract_references_from_string does) have empty strings for blank lines, which count as text, and two blank lines in a row give a reference without text.", "quantifier": "all lists of lines without a marker (blank lines: without empty strings)", "why_tests_cant": "All layouts of a section; the decision depends on counts over the whole section.", "anchors": ["refextract/references/text.py:rebuild_reference_lines", "refextract/references/text.py:test_for_blank_lines_separating_reference_lines"]}
{"id": "C51", "title": "Handles in texts and addresses become handle elements", "statement": "Every handle (\"hdl:\" in any spelling or http(s)://hdl.handle.net/, followed by a run without white space with a slash inside it) in the text of an element is cut out, with everything up to white space, and gives a handle element that carries its identifier and the text behind it; no other text is touched, no handle stays in a text and all elements are kept. If no two elements are alike but for their texts, the new elements stand directly behind the one they come from. An address that begins with a handle makes its element a handle element without the fields of the address. One expects the identifier without trailing punctuation and the order of the line. This is false of the code (refuted by witnesses): \"hdl:2027/pst.000012, p. 3\" gives the identifier with the comma, and the place is that of the first equal element.", "quantifier": "all element lists", "why_tests_cant": "All texts and all coincidences between elements.", "anchors": ["refextract/references/engine.py:look_for_hdl", "refextract/references/engine.py:look_for_hdl_urls", "refextract/references/regexs.py:re_hdl"]}
{"id": "C52", "title": "The knowledge base builders make tables the extraction can use", "statement": "A table of journals, read from any file or given by the caller, has for every phrase it lists a pattern and a title, and no phrase contains a lower case ASCII letter; taking capitals twice gives what taking them once gives, so every book is found under its own key. With the reports, collaborations, publishers, authors and special journals as shipped, any table of journals and any table of books whose rows have three columns and an ASCII letter or digit in the title, extraction from a text raises no exception but IndexError (a text that contains the package's own tags) and ValueError (a special journal whose page is a digit that int() rejects). With these tables, titles of journals without \"<\" and a text without \"<\" whose characters unidecode writes without \"<\", no exception but ValueError is raised.", "quantifier": "all tables of journals, all tables of books with full rows, all texts with lines of ordinary length", "why_tests_cant": "The tables are arbitrary and so are the texts.", "anchors": ["refextract/references/kbs.py:build_journals_kb", "refextract/references/kbs.py:build_books_kb", "refextract/references/kbs.py:get_kbs", "refextract/references/api.py:extract_references_from_string"]}
{"id": "C53", "title": "Each element goes to its output field", "statement": "In every reference that parse_references returns, raw_ref is the line, linemarker its marker without brackets, dots and spaces, and every other field holds exactly the non-empty texts that the elements of the citation contribute to it, in the order of the elements: a journal its title, volume, year, page and formatted reference, a report number, an address (and its description if it is another text), an author (editors in parentheses), a title, an ISBN, a publisher, a year, a collaboration, a record identifier each to its field, the text around an element without punctuation at its ends to misc. Values of doi begin with \"doi:\", those of hdl with \"hdl:\". No field is present without a value.", "quantifier": "all environments, knowledge bases, formats and lists of lines for which parse_references returns", "why_tests_cant": "A test sees the fields of the references it lists; that nothing else reaches a field, that no text is lost or moved to another field and that the order is that of the line is a statement on all citations.", "anchors": ["refextract/references/record.py: build_references, add_subfield, add_journal_subfield", "refextract/references/engine.py: parse_references"]}
{"id": "C54", "title": "Exactly quoted text, ISBNs, ATLAS notes and loose volumes are tagged", "statement": "tag_quoted_text replaces exactly the texts between two straight quotes (without a quote inside, not empty), from left to right; tag_isbn exactly ISBN, dashes or spaces, nothing, 10 or 13, colons or white space and the longest run of 10 to 25 digits, dashes and x; tag_atlas_conf exactly the ATL-CONF and ATLAS-CONF numbers (1999 and 2000-2009: ATL-CONF; later: ATLAS-CONF) that do not follow a word character and a colon and are followed by no word character; wash_volume_tag joins a letter, one space and a number inside a volume tag. Everything else stays as it is, and none of these texts begins in a part that stays. One expects the words \"International Standard Book Number\" to introduce an ISBN and \"ISBN-13-\" not to become a part of the number. This is false of the code (refuted by witnesses): the pattern is verbose, so that its spaces are ignored, and it tries to read no 10 or 13 first.", "quantifier": "all lines", "why_tests_cant": "Tests try single lines; which texts are replaced, that all of them are and that nothing else changes is a statement on all lines.", "anchors": ["refextract/references/tag.py: tag_isbn, tag_quoted_text, tag_atlas_conf, wash_volume_tag", "refextract/references/regexs.py: re_isbn, re_quoted, RE_ATLAS_CONF_PRE_2010, RE_ATLAS_CONF_POST_2010, re_wash_volume_tag"]}
{"id": "C55", "title": "Exactly the arXiv numbers are tagged, in standard form", "statement": "tag_arxiv is four replacements, each from left to right and of exactly the following texts: \"arXiv\" in any case, separators, year (13 to 89), month (01 to 12) and five digits; the same with any two, two and four digits; without the name, not behind \"arXiv:\" or a digit, a year from 2013 to now, a month, a dot and five digits; a year from 1991 to now, a month, a dot and four digits; no digit follows. With the number go a version of one digit, white space and an archive in brackets behind it. The text becomes arXiv:YYMM.NNNN with the archive after a space. tag_arxiv_more rewrites arXiv:YYMMNNN [archive] to archive/YYMMNNN and then, for each archive of the table in turn, exactly the texts archive, optional separator, year (91 to 07), month, three digits and optional version that follow neither a word character nor a report number tag and are followed by no word character, to archive/number with the archive of the table. One expects a version to go with its number and a misspelt archive to become the one meant. This is false of the code (refuted by witnesses): of \"v12\" the \"2\" stays behind the tag, and \"ep-th\" becomes \"hep-ph\".", "quantifier": "all lines; the present year between 2013 and 2100", "why_tests_cant": "Tests list some numbers; that no other text becomes an arXiv number, for every year the program may run in and all archives of the table, cannot be listed.", "anchors": ["refextract/references/tag.py: tag_arxiv, tag_arxiv_more", "refextract/references/regexs.py: re_arxiv, re_arxiv_5digits, re_new_arxiv, re_new_arxiv_5digits, RE_ARXIV_CATCHUP, RE_OLD_ARXIV, compute_years"]}
{"id": "C56", "title": "References to PoS", "statement": "tag_pos_volume makes four passes over the line, for the forms year, volume, page; volume, year, page; volume, page, year; and (volume), page, each behind PoS in any case and with separators. In each pass exactly the texts of that form are replaced, from the left to the right and not overlapping, by the journal PoS, the volume (its name of one to ten word characters, as long as it can be, and its year put together), the year in parentheses (that of the volume if there is no other) and the page of up to four digits. One expects a year set off by single blanks before the volume to be read and only the word PoS to be taken for the journal. This is false of the code (refuted by witnesses): a second blank is needed behind the year, and the end of a longer word, as in Campos, is taken for PoS; what holds is the above.", "quantifier": "all lines", "why_tests_cant": "The replaced texts depend on the preferences of the backtracking matcher.", "anchors": ["refextract/references/tag.py:tag_pos_volume", "refextract/references/regexs.py:re_pos_patterns"]}
{"id": "C57", "title": "Volume, year and page of a journal reference", "statement": "find_numeration never fails, and reports a numeration exactly when the text begins with one, written in one of eleven orders of volume, issue, series, subtitle (FS, PM), year and page with the separators allowed between them, all given as a grammar of texts. It reports that of the first order that fits: its year, volume number, series (the letter before or the capital behind the volume number, or the one set off), page (or JINST page) and end of the range of pages, and its length; the number at its end is not cut in two, and no end of a range of pages and no closing parenthesis of the year is left behind. find_numeration_more does the same for four orders around a tagged title, anywhere in the text, taking the leftmost. In the three usual forms, volume (year) page, volume, page (year) and (year) volume, page, for all numbers, all years 19xx and 20xx, with or without a series letter and the end of a range, exactly the numbers written are reported. One expects the series standing between volume and page to be reported by both. This is false of the code (refuted by a witness): around a tagged title it is lost.", "quantifier": "all texts; all numbers of any length, years, series letters other than V, ranges, and texts following", "why_tests_cant": "The patterns have many optional parts and which of the readings is taken depends on backtracking; tests show a few spellings.", "anchors": ["refextract/references/tag.py:find_numeration", "refextract/references/tag.py:find_numeration_more", "refextract/references/tag.py:extract_series_from_volume", "refextract/references/regexs.py:re_numeration_vol_page_yr", "refextract/references/regexs.py:re_correct_numeration_2nd_try_ptn1"]}
{"id": "C58", "title": "Markers of references and the limits of their section", "statement": "remove_reference_line_marker takes from a line exactly the text described by the first fitting of fourteen forms of markers ([1], [Do07a], {1}, <1>, (1), 1., 1 , 1], ..., [1.2], [], *, with white space allowed inside), given as a grammar of texts, and returns the rest without the white space in front of it; a line that begins with none of the forms is kept. In particular '[n]' before any text and 'n.' before any text not beginning with a digit are taken off, for all numbers n. get_reference_section_beginning never fails; the section begins at a line with a title of the first of the 28 forms (fourteen names in either case and with spaced letters, with or without the number of the section, before the end of the line, a first marker or a colon) that some line has; its first marker stands directly after the title, or is the first marker numbered 1 or without a number among the six lines from the title on. If no line has a title, the section begins at the last line numbered 1 in the first of the three ways of numbering ([1], 1., 1) in which a line numbered 1 is followed by one numbered 2 among the next ten lines or by fewer than five lines; if there is none, no section is found. The form of this marker is the one looked for from then on: that of one of the fourteen forms, also when it stands after the title, or of the way of numbering. The section ends before the first line with a title of another section (twenty forms) after which no marker of that form continues the numbering within 199 lines, or inside the first four lines of the axis of a graph, or with the text. If there is a first marker, the references are the lines of the section, without those that repeat the title, cut exactly before those lines' first markers that have the next number (or no number), each made into one text. Without a known form of markers find_end_of_reference_section ends the section in the same way, any of the fourteen forms continuing the numbering.", "quantifier": "all lines, all numbers and all texts", "why_tests_cant": "The limits depend on more than sixty patterns tried in order; tests have a few documents with usual titles and markers.", "anchors": ["refextract/references/engine.py:remove_reference_line_marker", "refextract/references/find.py:get_reference_section_beginning", "refextract/references/find.py:find_numeration", "refextract/references/find.py:find_end_of_reference_section", "refextract/references/regexs.py:get_reference_line_numeration_marker_patterns", "refextract/references/regexs.py:get_reference_section_title_patterns", "refextract/references/regexs.py:get_post_reference_section_title_patterns"]}
{"id": "C59", "title": "Which report numbers are found in a line", "statement": "With a knowledge base made by build_reportnum_kb (patterns of the shape the builder makes, reading no underscore), identify_report_numbers never fails. The report numbers of a category are exactly those its pattern finds in the line with blanks for slashes and underscores at the places of the report numbers of the categories tried before it, which are those with longer names, or with names of the same length that stand later in the knowledge base. Each is reported at the place and with the length of the first group, and is written as the standard category followed by its number in which every run of blanks and hyphens is one hyphen. The line returned has underscores for all of them and is otherwise the line with blanks for slashes. No report number is reported exactly when no pattern finds one in the line with blanks for slashes. The removal of hyphens beside slashes in the code never takes place, as the slashes are gone before.", "quantifier": "all knowledge bases made by the builder from any lines, all lines", "why_tests_cant": "Which of several overlapping report numbers is reported depends on the order of 335 categories; tests look at single report numbers.", "anchors": ["refextract/references/tag.py:identify_report_numbers", "refextract/references/kbs.py:build_reportnum_kb"]}
{"id": "C60", "title": "A tagged line is read back as it was written", "statement": "Write a line from texts without the beginnings <cds. and </cds. of tags and, between them, items in internal tags: a report number, an arXiv number, the place of a URL or of a DOI, authors of one of the three kinds, a quoted title, an ISBN, a publisher, a collaboration, a volume, year, page or series alone, a journal title without numeration, or a journal title (plain or of an ibid) with a numeration and further numerations behind it, where no numeration follows a title alone and no further one those that are written. parse_tagged_reference_line then gives exactly these items in their order: each as an element with the text before it as its misc text, the URLs and DOIs taken from the lists in order, arXiv numbers marked as such, a journal with the series letter before its volume, with its year or an empty one, its page and the further numerations, of which the first has the title; the text of the items that cannot be used stands in the misc text of the next element, and what is left at the end is a misc element unless it has only blanks and \".;,\". The patterns of the numerations read exactly the texts of their grammars.", "quantifier": "all contents of lines: every list of texts and items and every last text, with every numeration of the grammars; all further URLs and DOIs", "why_tests_cant": "The fields are cut out by offsets of pattern matches and closing tags in a line of any length; tests fix a few lines and cannot show that no combination of neighbours, series, years or repeated titles loses or shifts a field.", "anchors": ["refextract/references/engine.py:905-1353 parse_tagged_reference_line", "refextract/references/engine.py:1356-1415 map_tag_to_subfield, convert_unusable_tag_to_misc", "refextract/references/regexs.py:388-460 re_recognised_numeration_title_plus_series, re_numeration_no_ibid_txt, re_tagged_citation"]}
{"id": "C61", "title": "Exactly the collaborations of the knowledge base are tagged", "statement": "One expects that a collaboration of the knowledge base is recognised with and without the word Collaboration. This is false of the code when punctuation follows the name directly (refuted by a witness): the white space between the name and the word stays obligatory. What holds, for the shipped knowledge base and every line without tags inside tags: identify_and_tag_collaborations raises nothing and treats the collaborations one after the other. For each, in the line with its tags masked, a text names the collaboration if it is the name in any case, any white space standing for a blank, then one white space, then nothing or white space and coll, coll., collaboration or collaborations, followed by the end, a bracket > < ] ), a double quote, a point, comma, colon or white space, and led by the start, a character that is no word character, or one of ( \" [ and white space, then white space and perhaps the or and. From the left to the right each such text is replaced by <cds.COLLABORATION>name</cds.COLLABORATION>, where the name is the longest form possible, without blanks and punctuation at its ends; no text that names the collaboration begins in what is kept, and all other characters of the line, masked or not, stay as they are. The tags put in never make the line nested, so the later collaborations are found in the same way.", "quantifier": "all lines without nested tags; all 27 collaborations of the shipped knowledge base", "why_tests_cant": "A test tries some spellings on some lines; that the replacements made from the right on positions of the masked line hit exactly the texts that name a collaboration, for every line, and that the tags of one collaboration never disturb the next, needs a proof.", "anchors": ["refextract/references/tag.py:862-885 identify_and_tag_collaborations", "refextract/references/kbs.py:563-574 build_collaborations_kb", "refextract/references/kbs/collaborations.kb"]}
{"id": "C62", "title": "Which book is added to a citation", "statement": "For every table of books with full rows and all citations that share no element, whose misc texts have no character that upper-cases to several: looking for books raises nothing, and a citation with a book, journal, DOI, ISBN or record is left as it is. For another citation, the year is that of its first year element; a title of the table fits a misc text when it is in the text up to case and punctuation and the year of its row, without semicolons at its ends, is the year of the citation. When no title fits a misc text of the citation, or it has no year, it is left as it is. Otherwise the first element with a fitting title, and for it the first fitting title of the table, give one book element with the authors, title and year of the row at the end of the citation; that misc text loses the first occurrence of the title with what follows up to the next space, opening bracket, letter or digit, both sides stripped with a blank between, and then the year; all other elements stay.", "quantifier": "all tables with full rows; all lists of citations without shared elements", "why_tests_cant": "The first fitting pair of element and title is chosen in a double loop over unbounded lists, with matching up to punctuation.", "anchors": ["refextract/references/engine.py:692-769 look_for_undetected_books, search_for_book_in_misc", "refextract/references/engine.py:822-827 is_unknown_citation", "refextract/references/kbs.py:401-407 build_books_kb"]}
{"id": "C63", "title": "Which report numbers the shipped knowledge base knows", "statement": "For the knowledge base the package ships and every line without C_V (a text that one of its 335 categories alone has): the report numbers found are exactly these. A report number of a category begins at the start of the line or after a character other than A-Z a-z 0-9 / . -, and is an optional opening bracket [ or (, the category, a number in one of the forms listed for its institute (with years of two or four digits, months 01 to 12, optional digits and endings, blanks of any length), and an optional closing bracket ] or ). The line is read from the left, with blanks for slashes and underscores for what the categories with longer names have found; of several readings at one place the form listed first and the longer optional parts are preferred. Each is written as the standard category and its number, with one hyphen for every run of blanks and hyphens.", "quantifier": "all lines; all 25 institutes with 335 categories of the shipped file", "why_tests_cant": "335 patterns with up to 20 optional parts each are tried on one another's leavings, on lines of any length.", "anchors": ["refextract/references/kbs.py:98-377 order_reportnum_patterns_bylen, create_institute_numeration_group_regexp_pattern, institute_num_pattern_to_regex, build_reportnum_kb", "refextract/references/tag.py:1225-1313 identify_report_numbers", "refextract/references/kbs/report-numbers.kb"]}
{"id": "C64", "title": "Which publishers are found in a line", "statement": "The table of publishers has, for each name of the knowledge base file, the publisher of the last line with this name. For the shipped table and every line: there is a publisher at a place of the line exactly when a name of the table stands there as words of its own (no letter, digit or underscore before or behind it), in any mixture of capitals and small letters; if several names do, it is the longest. No publisher is found in what was masked before. One expects that a name gives one publisher. This is false of the code (refuted by a witness): a shorter name at the end of a longer one is found as well, so that \"Kluwer Academic\" is written as the two publishers Kluwer Academic and Academic.", "quantifier": "all knowledge base files and names; all lines and places, for the shipped table", "why_tests_cant": "85 patterns are tried on every line, one may overwrite another's entry, and matches within one pattern do not overlap.", "anchors": ["refextract/references/kbs.py:410-417 build_publishers_kb", "refextract/references/tag.py:1316-1325 identify_publishers", "refextract/references/tag.py:687-731 add_tagged_publisher"]}
{"id": "C65", "title": "Which journal titles are found in a line", "statement": "For every table of journals whose titles are not empty and have no underscore, and every line: the titles are looked for one after the other, longest first, each in the line the titles before it have left. A title of the left column is recognised after the start of the line or a character that is no letter, digit or underscore, and before such a character; any other title behind a word boundary but not behind a slash, and before a character other than A-Z and 0-9. Each title is looked for from the left to the right; where it is recognised, and nowhere else, it is noted and masked with underscores, and the search goes on behind the character after it. This determines the places found. One expects that a title at the end of a line is found too. This is false of the code (refuted by a witness): a character must stand behind it, so that in \"SEE PHYS LETT\" only PHYS is found.", "quantifier": "all tables of journals, all lines", "why_tests_cant": "Thousands of titles are tried on what the others have left, on lines of any length, with a pattern that takes one more character than the title.", "anchors": ["refextract/references/tag.py:1157-1222 identify_journals", "refextract/references/kbs.py:484-560 build_journals_kb"]}
{"id": "C66", "title": "What is recognised in a line", "statement": "For the shipped knowledge bases with any table of journals whose titles are not empty and have no underscore, every line that tag_reference_line tags and every result of the external calls: an ibid is found at a place exactly when IBID or IBIDEM stands there, with a hyphen before it if there is one and with as much of EM and a full stop behind it as possible. Report numbers are found in the line in capitals with blanks for punctuation and single blanks; then journal titles in what the report numbers leave; then ibids in what the titles leave, so that no IBID is left; then publishers in what the ibids leave. A journal is recognised at a place exactly when there is an ibid, or else a title, or else a match of a regular expression of journals in the line itself. What is recognised is put into the line from the left to the right, one thing at a place: a publisher, else a report number, else a journal. One expects that an ibid is a word of its own. This is false of the code (refuted by a witness): the end of the name in \"T. Shibid 13 (2000) 5\" is taken as an ibid and the name is cut.", "quantifier": "all lines, all tables of journals, all results of the external calls", "why_tests_cant": "Five passes work on what the passes before have masked; an example shows one interplay of them only.", "anchors": ["refextract/references/tag.py:88-179 tag_reference_line", "refextract/references/tag.py:1077-1095 identify_ibids", "refextract/references/tag.py:734-759 get_replacement_types", "refextract/references/regexs.py:464 re_ibid"]}
{"id": "C67", "title": "Which text of a file, a string or a line is read", "statement": "Of the lines pdftotext prints for a PDF, a line of white space, a page break and more text becomes two lines, the page break and the text behind the last such page break, and every other line stays as it is. extract_references_from_file looks for references in the text without layout; if lines of references are found, the text with layout makes no difference to the result; if none are found, the result is the same as if pdftotext had kept the layout from the beginning. The lines of the string given to extract_references_from_string are the only list of texts without newline that gives the string when joined by newlines. extract_journal_reference returns the first journal of all references of the line in order, and nothing only if there is none.", "quantifier": "all services, options, files, strings and lines", "why_tests_cant": "All texts pdftotext may print and all combinations of the two tries.", "anchors": ["refextract/documents/pdf.py:convert_PDF_to_plaintext", "refextract/references/engine.py:get_plaintext_document_body", "refextract/references/api.py:extract_references_from_file", "refextract/references/api.py:extract_references_from_string", "refextract/references/api.py:extract_journal_reference"]}
