(** The author patterns of refextract/authors/regexs.py (lines 58-174, 194-369, 508-541),
    as text compiled by the model's parser.  The theorems quantify over arbitrary
    patterns ([env]); the real ones are used for evaluating examples. *)
From Coq Require Import List Arith NArith Bool String.
From Verif Require Import PyStr Regex RegexParse Patterns Uppercase.
Import ListNotations.
Open Scope nat_scope.

Definition initial_surname_author_pattern : str :=
  (py "
    (?:
        (?:"%string
  ++ uppercase_re
  ++ py "\w{2,20}\s+)?  ## Optionally a first name before the initials

        (?<!Volume\s)                     ## Initials (1-5) (cannot follow 'Volume\s')
        ## separated by .,-,',etc.
        "%string
  ++ uppercase_re
  ++ py "(?:\s*[.'’\s-]{1,3}\s*"%string
  ++ uppercase_re
  ++ py "){0,4}[.\s-]{1,2}\s*
        ## Optionally a first name after the initials
        (?:"%string
  ++ uppercase_re
  ++ py "\w{2,20}\s+)?

        (?:
            (?!"%string
  ++ py "at"%string
  ++ py ")            ## Invalid prefixes to avoid
            \w{1,3}(?<!and)(?:(?:[’'`´-]\s?)|\s)## The surname prefix: 1, 2 or 3
        )?                                      ## character prefixes before the surname
                                                ## (e.g. 'van','de')

        (?!"%string
  ++ py "Supergravity|Collaboration|Theoretical|Appendix|Phys|Paper|Energy"%string
  ++ py ")                            ## Invalid surnames to avoid
        ## The surname, which must start with an upper case character
        "%string
  ++ uppercase_re
  ++ py "
        (?:[rR]\.|\w{1,20})                                 ## handle Jr.
        ## single hyphen allowed jan-el or Figueroa-O'Farrill
        (?:[\-’'`´][\w’']{1,20})?
        [’']?                                               ## Eventually an ending '
        ## A possible number to appear after an author name, used for author extraction
        "%string
  ++ []
  ++ py "

        (?:               # Look for editor notation after the author group...
            \s*,?\s*      # Eventually a coma/space
            "%string
  ++ py re_ed_notation_src
  ++ py "
        )?
    )"%string)%list.

Definition surname_initial_author_pattern : str :=
  (py "
    (?:
        (?:
            (?!"%string
  ++ py "at"%string
  ++ py ")                     ## Invalid prefixes to avoid
            \w{1,3}(?<!and)(?<!in)(?:(?:[’'`´-]\s?)|\s)
        )?   ## The optional surname prefix:
        ## 1 or 2, 2-3 character prefixes before the surname (e.g. 'van','de')

        (?!"%string
  ++ py "Supergravity|Collaboration|Theoretical|Appendix|Phys|Paper|Energy"%string
  ++ py ")       ## Invalid surnames to avoid
        ## The surname, which must start with an upper case character
        ## (single hyphen allowed)
        "%string
  ++ uppercase_re
  ++ py "\w{2,20}(?:[\-’'`´]\w{2,20})?

        \s*[,.\s]\s*                   ## The space between the surname and its initials

        (?<!Volume\s)                  ## Initials
        "%string
  ++ uppercase_re
  ++ py "(?:\s*[.'’\s-]{1,2}\s*"%string
  ++ uppercase_re
  ++ py "){0,4}\.{0,2}

        ## Either a comma or an 'and' MUST be present ... OR an end of line marker
        ## (maybe some space's between authors)
        ## Uses positive lookahead assertion
        ## A possible number to appear after an author name, used for author extraction
        "%string
  ++ []
  ++ py "

        (?:               # Look for editor notation after the author group...
            \s*,?\s*      # Eventually a coma/space
            "%string
  ++ py re_ed_notation_src
  ++ py "
        )?
    )"%string)%list.

Definition make_auth_regex_str (i_s_author : str) : str :=
  (py "
    ## Must be the start of the line, a space (or an opening bracket in very few cases)
     (?:^|\s+|\()
     ## Look for editor notation before the author
     (?P<es>
      ## 'eds?. '     | 'ed '      | 'ed.'
      (?:(?:(?:[Ee][Dd]s?|[Ee]dited|[Ee]ditors?)((?:\.\s?)|(?:\.?\s)))
      ## 'eds?. by, ' | 'ed. by: ' | 'ed by '  | 'ed. by '| 'ed by: '
      |(?:(?:[Ee][Dd]s?|[Ee]dited|[Ee]ditions?)(?:(?:\.\s?)|(?:\.?\s))by(?:\s|([:,]\s)))
       ## '( eds?. )'  | '(ed.)'    | '(ed )'   | '( ed )' | '(ed)'
      |(?:\(\s?([Ee][Dd]s?|[Ee]dited|[Ee]ditors?)(?:(?:\.\s?)|(?:\.?\s))?\)))
     )?

   ## **** (1) , one or two surnames which MUST end with 'et al' (e.g. Amaldi et al.,)
   (?P<author_names>
       (?:
         (?:[A-Z](?:\s*[.'’-]{1,2}\s*[A-Z]){0,4}[.\s]\s*)?          ## Initials
         [A-Z][^0-9_\.\s]{2,20}(?:(?:[,\.]\s*)|(?:[,\.]?\s+))       ## Surname
         (?:[A-Z](?:\s*[.'’-]{1,2}\s*[A-Z]){0,4}[.\s]\s*)?          ## Initials
         (?P<multi_surs>
          (?:(?:[Aa][Nn][Dd]|\&)\s+)                                ## 'and' or '&'
          [A-Z][^0-9_\.\s]{3,20}(?:(?:[,\.]\s*)|(?:[,\.]?\s+))      ## More surnames
          (?:[A-Z](?:[ -][A-Z])?\s+)?                               ## with initials
         )?
         (?:                     # Look for editor notation after the author group...
             \s*[,\s]?\s*        # Eventually a coma/space
             "%string
  ++ py re_ed_notation_src
  ++ py "
         )?
         (?P<et2>
            "%string
  ++ py re_etal_src
  ++ py "             # et al, MUST BE PRESENT however, for this author form
         )
         (?:                     # Look for editor notation after the author group...
             \s*[,\s]?\s*        # Eventually a coma/space
             "%string
  ++ py re_ed_notation_src
  ++ py "
         )?
       ) |

        (?:
            ## **** (2) , The standard author form.. (e.g. J. Bloggs)
            ## This author form can either start with a normal 'initial surname' author,
            ## or it can begin with a single 'surname initial' author

            (?:                                ## The first author in the 'author group'
               "%string
  ++ i_s_author
  ++ py " |
               (?P<sur_initial_auth>"%string
  ++ surname_initial_author_pattern
  ++ py ")
            )

            (?P<multi_auth>
                (?:                         ## Then 0 or more author names
                    \s*[,\s]\s*
                    (?:
                        "%string
  ++ i_s_author
  ++ py " | "%string
  ++ surname_initial_author_pattern
  ++ py "
                    )
                )*

                (?:                         ## Maybe 'and' or '&' tied with another name
                    (?:
                        \s*[,\s]\s*         ## handle ""J. Dan, and H. Pon""
                        (?:[Aa][Nn][DdsS]|\&)
                        \s+
                    )
                    (?P<mult_auth_sub>
                        "%string
  ++ i_s_author
  ++ py " | "%string
  ++ surname_initial_author_pattern
  ++ py "
                    )
                )?
             )
             (?P<et>            # 'et al' need not be present for either of
                \s*[,\s]\s*
                "%string
  ++ py re_etal_src
  ++ py "        # 'initial surname' or 'surname initial' authors
             )?
        )
    )
    (?P<ee>
        \s*[,\s]\s*
        \(?
        (?:[Ee][Dd]s|[Ee]ditors)\.?
        \)?
        [\.\,]{0,2}
    )?
    # End of all author name patterns

    \)?                # A possible closing bracket to finish the author group
    (?=[\s,.;:])        # Consolidate by checking we are not partially matching
                       # something else

    "%string)%list.

Definition re_weaker_author : str :=
  (py "
              ## look closely for initials, and less closely at the last name.
              (?:([A-Z]((\.\s?)|(\.?\s+)|(\-))){1,5}
              (?:[^\s_<>0-9]+(?:(?:[,\.]\s*)|(?:[,\.]?\s+)))+)"%string)%list.

Definition re_auth_real : rx := Eval vm_compute in the_rx (compile fX (make_auth_regex_str initial_surname_author_pattern)).
Definition re_auth_near_miss_real : rx := Eval vm_compute in
  the_rx (compile fX (make_auth_regex_str (py "(" ++ re_weaker_author ++ py ")+$"))).

