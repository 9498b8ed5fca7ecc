(** Model of the numeration functions of refextract/references/tag.py: find_numeration
    (1108-1154), find_numeration_more (451-478), extract_series_from_volume (554-560),
    create_numeration_tag (563-575). *)
From Coq Require Import List Arith NArith Bool String.
From Verif Require Import PyStr Regex Patterns.
Import ListNotations.
Open Scope nat_scope.

(** match.groupdict().get(name) *)
Definition gd_get (p : rx) (s : str) (o : mobj) (n : string) : option str :=
  match assoc_str (py n) (rx_names p) with Some i => g_text s o i | None => None end.
(** match.groupdict()[name]: KeyError when the pattern has no such group *)
Definition gd (p : rx) (s : str) (o : mobj) (n : string) : res (option str) :=
  match assoc_str (py n) (rx_names p) with Some i => Ok (g_text s o i) | None => Err KeyError end.
(** a value that is then used as a string *)
Definition need (v : option str) : res str := match v with Some s => Ok s | None => Err TypeError end.
(** Python's [a or b] on optional strings *)
Definition or_else (a b : option str) : option str :=
  match a with Some (_ :: _) => a | _ => b end.
(** truth value of an optional string *)
Definition truthy_str (a : option str) : bool := match a with Some (_ :: _) => true | _ => false end.

(** extract_series_from_volume, tag.py 554-560 *)
Definition extract_series_from_volume (v : str) : option str :=
  match re_search (rx_re re_series_from_numeration) v with
  | Some o => Some (upper (g_str v o 1))
  | None => match re_search (rx_re re_series_from_numeration_after_volume) v with
            | Some o => Some (upper (g_str v o 1))
            | None => None
            end
  end.

Record numinfo := mknum {
  n_year : option str; n_series : option str; n_volume : option str;
  n_page : option str; n_page_end : option str; n_len : nat }.

(** info["vol_num"], else info["vol_num_alt"], else info["vol_num_alt2"]: tag.py 466-469,
    1141-1144 *)
Definition vol_num_of (p : rx) (s : str) (o : mobj) : res (option str) :=
  let* v := gd p s o "vol_num" in
  if truthy_str v then Ok v else
  let* a := gd p s o "vol_num_alt" in
  if truthy_str a then Ok a else gd p s o "vol_num_alt2".

(** body of the loop of find_numeration, tag.py 1135-1152 *)
Definition numeration_info (p : rx) (s : str) (o : mobj) : res numinfo :=
  let* vol := gd p s o "vol" in
  let series := gd_get p s o "series" in
  let* series := (if truthy_str series then Ok series
                  else let* v := need vol in Ok (extract_series_from_volume v)) in
  let* volume := vol_num_of p s o in
  let* page := gd p s o "page" in
  let* jinst := (if truthy_str page then Ok None else gd p s o "jinst_page") in
  let* page_end := gd p s o "page_end" in
  Ok (mknum (gd_get p s o "year") series volume (or_else page jinst) page_end (m_end o)).
Fixpoint find_numeration_with (ps : list rx) (s : str) : res (option numinfo) :=
  match ps with
  | [] => Ok None
  | p :: t => match re_match (rx_re p) s with
              | Some o => let* i := numeration_info p s o in Ok (Some i)
              | None => find_numeration_with t s
              end
  end.
Definition find_numeration (s : str) : res (option numinfo) := find_numeration_with numeration_rxs s.

(** find_numeration_more, tag.py 451-478 *)
Definition second_try : list rx := [re_2nd_try_ptn1; re_2nd_try_ptn2; re_2nd_try_ptn3; re_2nd_try_ptn4].
Definition numeration_info_more (p : rx) (s : str) (o : mobj) : res numinfo :=
  let* vol := gd p s o "vol" in
  let* v := need vol in
  let series := extract_series_from_volume v in
  let* volume := vol_num_of p s o in
  let* page := gd p s o "page" in
  let* jinst := (if truthy_str page then Ok None else gd p s o "jinst_page") in
  let* page_end := gd p s o "page_end" in
  let* after := gd p s o "aftertitle" in
  let* after := need after in
  Ok (mknum (gd_get p s o "year") series volume (or_else page jinst) page_end (List.length after)).
Fixpoint find_numeration_more_with (ps : list rx) (s : str) : res (option numinfo) :=
  match ps with
  | [] => Ok None
  | p :: t => match re_search (rx_re p) s with
              | Some o => let* i := numeration_info_more p s o in Ok (Some i)
              | None => find_numeration_more_with t s
              end
  end.
Definition find_numeration_more (s : str) : res (option numinfo) := find_numeration_more_with second_try s.

(** "%s" of an optional string *)
Definition show (v : option str) : str := match v with Some s => s | None => py "None" end.

(** create_numeration_tag, tag.py 563-575 *)
Definition create_numeration_tag (i : numinfo) : res str :=
  let* vol := (match n_series i with
               | Some (c :: t) => let* v := need (n_volume i) in Ok ((c :: t) ++ v)
               | _ => Ok (show (n_volume i))
               end) in
  Ok (py " <cds.VOL>" ++ vol ++ py "</cds.VOL>"
      ++ (if truthy_str (n_year i) then py " <cds.YR>(" ++ show (n_year i) ++ py ")</cds.YR>" else [])
      ++ (if truthy_str (n_page_end i)
          then py " <cds.PG>" ++ show (n_page i) ++ py "-" ++ show (n_page_end i) ++ py "</cds.PG>"
          else py " <cds.PG>" ++ show (n_page i) ++ py "</cds.PG>")).
