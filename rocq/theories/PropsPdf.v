(** C35: the order of the keys of a PDF and the links of a page with two columns. *)
From Coq Require Import ZArith NArith Arith Bool String Lia List Sorting Permutation.
From Verif Require Import PyStr Pdf PdfProofs PdfOrder.
Import ListNotations.
Local Open Scope string_scope. Local Open Scope list_scope. Local Open Scope Z_scope.

(** Whenever keys are returned, they are in reading order.  A document has two columns if
    three of its keys in the right halves of their pages begin at the same distance from the
    left edge.  Then a key is before another if it is on an earlier page, or on the same page in
    the left half and the other in the right half, or in the same half and higher (equally
    high: further left).  Otherwise the halves of a page do not count. *)
Theorem C35_order : forall dests links l, texkeys_and_urls dests links = Ok l ->
  exists order, Permutation order (filter is_cited dests) /\ map fst l = map key_of order
  /\ (second_column (filter is_cited dests) -> StronglySorted before_two order) /\ (~ second_column (filter is_cited dests) -> StronglySorted before_one order).
Proof. exact texkeys_order. Qed.
Print Assumptions C35_order.
(** One page with two columns, with no two keys of a column equally high and no link exactly as
    high as a key of its column.  If the left column has two keys at least, every link of the
    left column below a key and above the lower keys of the column is reported for this key.
    For every key but the lowest of the left column, only such links of its own column are reported. *)
Theorem C35_two_columns : forall P dests links l, let cited := filter is_cited dests in
  texkeys_and_urls dests links = Ok l -> second_column cited ->
  (forall d, In d cited -> n_page d = P /\ (half d = 0 \/ half d = 1)) -> (forall u, In u links -> l_page u = P /\ (lhalf u = 0 \/ lhalf u = 1)) ->
  NoDup (map (fun d => (half d, top d)) cited) -> (forall d u, In d cited -> In u links -> lhalf u = half d -> l_top u <> top d) ->
  exists order, Permutation order cited /\ StronglySorted before_two order
    /\ Forall2 (fun d e => fst e = key_of d
        /\ (half d = 0 -> (exists d', In d' cited /\ half d' = 0 /\ top d' <> top d) -> forall u, In u links -> own cited d u -> In (l_uri u) (snd e))
        /\ (half d = 1 \/ (exists d', In d' cited /\ half d' = 0 /\ top d' < top d) -> forall v, In v (snd e) -> exists u, In u links /\ l_uri u = v /\ own cited d u)) order l.
Proof. exact two_columns. Qed.
Print Assumptions C35_two_columns.
Definition key_at (key : string) (left top : Z) : dest := mkdest (py key) 1 600 (Some left) (Some top).
Definition uri_at (uri : string) (left top : Z) : link := mklink (py uri) 1 600 left top.
Example C35_two_columns_case :
  let dests := [key_at "cite.d" 320 500; key_at "cite.a" 70 700; key_at "cite.c" 320 650; key_at "cite.b" 70 300; key_at "cite.e" 320 200] in
  let links := [uri_at "u1" 90 650; uri_at "u2" 90 250; uri_at "u3" 340 640; uri_at "u5" 340 150] in let cited := filter is_cited dests in
  second_column cited /\ (forall d, In d cited -> n_page d = 1 /\ (half d = 0 \/ half d = 1)) /\ (forall u, In u links -> l_page u = 1 /\ (lhalf u = 0 \/ lhalf u = 1))
  /\ NoDup (map (fun d => (half d, top d)) cited) /\ (forall d u, In d cited -> In u links -> lhalf u = half d -> l_top u <> top d)
  /\ texkeys_and_urls dests links = Ok [(py "a", [py "u1"]); (py "b", [py "u2"]); (py "c", [py "u3"]); (py "d", []); (py "e", [py "u5"])].
Proof.
  cbv zeta. set (ds := filter is_cited _). vm_compute in ds. subst ds. split; [exists 320; vm_compute; lia|].
  split; [intros d I; repeat destruct I as [<-|I]; [..|destruct I]; vm_compute; auto|]. split; [intros d I; repeat destruct I as [<-|I]; [..|destruct I]; vm_compute; auto|].
  split; [vm_compute; repeat constructor; cbn; intuition discriminate|].
  split; [intros d u I J; repeat destruct I as [<-|I]; [..|destruct I]; (repeat destruct J as [<-|J]; [..|destruct J]); vm_compute; discriminate|]. vm_compute. reflexivity.
Qed.
(** What one expects of the two columns is not all true of the code.  A link of the left column
    between its two keys may be reported for both of them.  A link of the right column, below
    the first key of this column, may be reported for no key.  And the only key of the left column
    does not get the link below it if there is another link above it. *)
Theorem C35_two_columns_refuted :
  texkeys_and_urls [key_at "cite.a" 70 700; key_at "cite.b" 70 500; key_at "cite.c" 320 400; key_at "cite.d" 320 300; key_at "cite.e" 320 200] [uri_at "u" 90 600]
    = Ok [(py "a", [py "u"]); (py "b", [py "u"]); (py "c", []); (py "d", []); (py "e", [])]
  /\ texkeys_and_urls [key_at "cite.a" 70 500; key_at "cite.b" 70 300; key_at "cite.c" 320 700; key_at "cite.d" 320 350; key_at "cite.e" 320 200] [uri_at "u" 340 400; uri_at "w" 340 250]
    = Ok [(py "a", []); (py "b", []); (py "c", []); (py "d", [py "w"]); (py "e", [])]
  /\ texkeys_and_urls [key_at "cite.a" 70 200; key_at "cite.b" 320 700; key_at "cite.c" 320 600; key_at "cite.d" 320 500] [uri_at "text" 90 600; uri_at "u" 90 150]
    = Ok [(py "a", []); (py "b", []); (py "c", []); (py "d", [])].
Proof. vm_compute. repeat split. Qed.
Print Assumptions C35_two_columns_refuted.
(** Any number of pages: what is reported for a key is the URL of a link on the page of the key or
    on the next page, and not higher than the key, except on the page of a key in the left half
    which has another key in the right half, lower than the link. *)
Theorem C35_near : forall dests links l, let cited := filter is_cited dests in texkeys_and_urls dests links = Ok l ->
  exists order, Permutation order cited /\ (second_column cited -> StronglySorted before_two order) /\ (~ second_column cited -> StronglySorted before_one order)
    /\ Forall2 (fun d e => fst e = key_of d /\ forall v, In v (snd e) -> exists u, In u links /\ l_uri u = v
        /\ (l_page u = n_page d \/ l_page u = n_page d + 1)
        /\ (l_top u <= top d \/ l_page u = n_page d /\ exists d', In d' cited /\ n_page d' = n_page d /\ half d < half d' /\ top d' < l_top u)) order l.
Proof. exact near. Qed.
Print Assumptions C35_near.
(** the exception occurs (C35_two_columns_refuted, first case), and the next page too: a link below the
    first key of the second page is reported for the first key of the first page only *)
Theorem C35_next_page_refuted :
  texkeys_and_urls [mkdest (py "cite.a") 1 600 (Some 70) (Some 700); mkdest (py "cite.b") 1 600 (Some 70) (Some 300); mkdest (py "cite.c") 2 600 (Some 70) (Some 700)]
    [mklink (py "u") 2 600 90 650; mklink (py "w") 2 600 90 100] = Ok [(py "a", [py "u"]); (py "b", []); (py "c", [py "w"])].
Proof. vm_compute. reflexivity. Qed.
Print Assumptions C35_next_page_refuted.
