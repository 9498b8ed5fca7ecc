(** Which element goes to which field of a reference (C53). *)
From Coq Require Import List Arith NArith Bool String Lia.
From Verif Require Import PyStr ListFacts Elements Record Transform Tag Engine RecordProofs.
Import ListNotations.
Local Open Scope nat_scope.
Local Notation length := List.length.
Local Notation concat := List.concat.

Definition text_of (k : key) (e : el) : str := match get k e with Some (VS s) => s | _ => [] end.
(** the text around an element without punctuation at its ends, or nothing if there is only punctuation *)
Definition misc_part (s : str) : str :=
  if nonempty (strip_chars (py "., [](){}") s) then rstrip_chars (py "[({ ,.") (lstrip_chars (py "])} ,.") s) else [].
Definition of_val (v : val) : str :=
  match v with VS s => s | VNone => py "None" | VB true => py "True" | VB false => py "False" | VLink _ t => t | VIbids _ => [] end.
(** the template with the values of the element for the names *)
Definition filled (f : template) (e : el) : str :=
  concat (map (fun p => match p with Lit s => s | Field k => match get k e with Some v => of_val v | None => [] end end) f).
Definition contributions (f : template) (e : el) : list (fkey * str) :=
  (Fmisc, misc_part (e_misc e)) ::
  match e_type e with
  | JOURNAL => [(Fjournal_title, text_of Ktitle e); (Fjournal_volume, text_of Kvolume e); (Fjournal_year, text_of Kyear e);
                (Fjournal_page, text_of Kpage e); (Fjournal_reference, filled f e)]
  | REPORTNUMBER => [(Freportnumber, text_of Kreport_num e)]
  | URL => (Furl, text_of Kurl_string e) :: if eqs (text_of Kurl_string e) (text_of Kurl_desc e) then [] else [(Furldesc, text_of Kurl_desc e)]
  | DOI => [(Fdoi, py "doi:" ++ text_of Kdoi_string e)]
  | HDL => [(Fhdl, py "hdl:" ++ text_of Khdl_id e)]
  | AUTH => [(Fauthor, if eqs (text_of Kauth_type e) (py "incl") then py "(" ++ text_of Kauth_txt e ++ py ")" else text_of Kauth_txt e)]
  | QUOTED | BOOK => [(Ftitle, text_of Ktitle e)]
  | ISBN => [(Fisbn, text_of KISBN e)]
  | PUBLISHER => [(Fpublisher, text_of Kpublisher e)]
  | YEAR => [(Fyear, text_of Kyear e)]
  | COLLABORATION => [(Fcollaboration, text_of Kcollaboration e)]
  | RECID => [(Frecid, match get Krecid e with Some v => of_val v | None => [] end)]
  | MISC => []
  end.
(** the texts a list of elements gives to a field, in order *)
Definition values (f : template) (k : fkey) (els : list el) : list str :=
  map snd (filter (fun p : fkey * str => fkey_eqb k (fst p) && nonempty (snd p)) (flat_map (contributions f) els)).
Definition field (k : fkey) (r : ref) : list str := match fget k r with Some l => l | None => [] end.
Definition puts (r : ref) (l : list (fkey * str)) : ref := fold_left (fun r p => add_subfield r (fst p) (snd p)) l r.
Lemma puts_cons r a b : puts r (a :: b) = puts (add_subfield r (fst a) (snd a)) b. Proof. reflexivity. Qed.
Lemma puts_app r a b : puts r (a ++ b) = puts (puts r a) b. Proof. apply fold_left_app. Qed.
Lemma field_puts k l : forall r, field k (puts r l) = field k r ++ map snd (filter (fun p : fkey * str => fkey_eqb k (fst p) && nonempty (snd p)) l).
Proof.
  induction l as [|[k' v] l IH]; intros r; [cbn; now rewrite app_nil_r|]. change (puts r ((k', v) :: l)) with (puts (add_subfield r k' v) l). rewrite IH. unfold field at 1. rewrite fget_add_subfield. cbn [filter fst snd].
  destruct (fkey_eqb k k' && nonempty v); cbn [map]; auto. now rewrite <- app_assoc.
Qed.
Lemma get_str_text k e v : get_str k e = Ok v -> v = text_of k e.
Proof. unfold get_str, text_of. destruct (get k e) as [[]|]; intros H; inversion H; auto. Qed.
Lemma str_of_val_text v s : str_of_val v = Ok s -> s = of_val v.
Proof. destruct v as [| |[]| |]; cbn; intros H; inversion H; auto. Qed.
Lemma format_filled f e s : format_el f e = Ok s -> s = filled f e.
Proof.
  revert s. induction f as [|[l|k] f IH]; intros s H; cbn in H.
  - inversion H; auto.
  - apply bind_ok in H as (r & H & E). inversion E. unfold filled. cbn. f_equal. now apply IH.
  - unfold filled. cbn. destruct (get k e) as [v|]; [|discriminate]. apply bind_ok in H as (a & A & H). apply bind_ok in H as (r & H & E). inversion E. f_equal; [now apply str_of_val_text|now apply IH].
Qed.
Lemma add_opt_text r k v : add_subfield_opt r k v = add_subfield r k (match v with Some (VS s) => s | _ => [] end).
Proof. destruct v as [[]|]; reflexivity. Qed.
Lemma add_element_puts f r e r' : add_element f r e = Ok r' -> r' = puts r (contributions f e).
Proof.
  unfold add_element, contributions. intros H. rewrite puts_cons. cbn [fst snd].
  assert ((if nonempty (strip_chars (py "., [](){}") (e_misc e)) then add_subfield r Fmisc (rstrip_chars (py "[({ ,.") (lstrip_chars (py "])} ,.") (e_misc e))) else r) = add_subfield r Fmisc (misc_part (e_misc e))) as Em.
  { unfold misc_part. destruct (nonempty (strip_chars _ _)); auto. }
  rewrite Em in H. set (q := add_subfield r Fmisc (misc_part (e_misc e))) in *. clearbody q. clear Em.
  destruct (e_type e).
  all: try (injection H as <-; reflexivity).
  all: try (unfold add_journal_subfield in H; apply bind_ok in H as (s & A & H); apply format_filled in A; injection H as <-; subst s; rewrite !add_opt_text; reflexivity).
  all: try (apply bind_ok in H as (v & A & H); apply get_str_text in A).
  all: try (injection H as <-; subst v; reflexivity).
  all: try (apply bind_ok in H as (d & B & H); apply get_str_text in B; subst v d).
  all: try (injection H as <-; reflexivity).
  - destruct (eqs _ _); injection H as <-; reflexivity.
  - destruct (get Krecid e); [|discriminate]. apply bind_ok in H as (s & A & H). apply str_of_val_text in A. injection H as <-. subst s. reflexivity.
Qed.
Lemma add_elements_puts f : forall l r r', add_elements f r l = Ok r' -> r' = puts r (flat_map (contributions f) l).
Proof.
  induction l as [|e l IH]; intros r r' H; cbn in H; [now inversion H|]. apply bind_ok in H as (q & A & H). apply add_element_puts in A. subst q. apply IH in H. cbn [flat_map]. now rewrite puts_app.
Qed.
(** the marker without brackets, dots and spaces, if there is more than punctuation *)
Definition marker_values (m : str) : list str := if nonempty (strip_chars (py "., [](){}") m) then [strip_chars (py "[](){}. ") m] else [].
Definition built (f : template) (marker raw : str) (els : list el) (r : ref) : Prop :=
  field Fraw_ref r = [raw] /\ field Flinemarker r = filter nonempty (marker_values marker)
  /\ (forall k, k <> Fraw_ref -> k <> Flinemarker -> field k r = values f k els)
  /\ (forall k, fget k r <> Some []).
Lemma puts_none k l : forall r, fget k r <> Some [] -> fget k (puts r l) <> Some [].
Proof.
  induction l as [|[k' v] l IH]; intros r H; auto. rewrite puts_cons. apply IH. cbn [fst snd]. rewrite fget_add_subfield. destruct (_ && _); auto. destruct (fget k r) as [[|]|]; discriminate.
Qed.
Lemma build_fields f els marker raw rs : build_reference_fields els marker raw f = Ok rs -> exists r, rs = [r] /\ built f marker raw els r.
Proof.
  unfold build_reference_fields. intros H. apply bind_ok in H as (r & A & H). injection H as <-. exists r. split; auto. apply add_elements_puts in A. subst r.
  set (r0 := fset Fraw_ref [raw] (create_reference_field marker)).
  assert (forall k, fget k r0 = if fkey_eqb k Fraw_ref then Some [raw] else if fkey_eqb k Flinemarker then match filter nonempty (marker_values marker) with [] => None | l => Some l end else None) as F.
  { intros k. unfold r0. rewrite fget_fset. destruct (fkey_eqb k Fraw_ref); auto. unfold create_reference_field, marker_values. destruct (nonempty (strip_chars _ marker)); [|destruct (fkey_eqb k Flinemarker); reflexivity].
    rewrite fget_add_subfield. unfold format_marker. cbn [filter]. destruct (fkey_eqb k Flinemarker), (nonempty _); reflexivity. }
  assert (forall p, In p (flat_map (contributions f) els) -> fst p <> Fraw_ref /\ fst p <> Flinemarker) as N.
  { intros p I. apply in_flat_map in I as (e & _ & I). unfold contributions in I. destruct I as [<-|I]; [split; discriminate|].
    destruct (e_type e); try (destruct (eqs _ _) in I); cbn [In] in I; repeat (destruct I as [<-|I]; [split; discriminate|]); contradiction. }
  assert (forall k, k = Fraw_ref \/ k = Flinemarker -> filter (fun p : fkey * str => fkey_eqb k (fst p) && nonempty (snd p)) (flat_map (contributions f) els) = []) as Z.
  { intros k Hk. set (l := flat_map _ _) in *. assert (forall p, In p l -> fkey_eqb k (fst p) && nonempty (snd p) = false) as Q.
    { intros p I. destruct (N p I) as (N1 & N2). destruct (fkey_eqb_spec k (fst p)) as [->|]; auto. destruct Hk; congruence. }
    clear -Q. induction l as [|p l IH]; auto. cbn [filter]. rewrite (Q p (or_introl eq_refl)). apply IH. intros q I. apply Q. now right. }
  split; [|split; [|split]].
  - rewrite field_puts, Z by auto. unfold field. rewrite F. reflexivity.
  - rewrite field_puts, Z by auto. unfold field. rewrite F. cbn [map]. rewrite app_nil_r. change (fkey_eqb Flinemarker Fraw_ref) with false. change (fkey_eqb Flinemarker Flinemarker) with true. cbv iota. destruct (filter _ _); reflexivity.
  - intros k N1 N2. rewrite field_puts. unfold field. rewrite F. destruct (fkey_eqb_spec k Fraw_ref); [congruence|]. destruct (fkey_eqb_spec k Flinemarker); [congruence|]. reflexivity.
  - intros k. apply puts_none. rewrite F. destruct (fkey_eqb k Fraw_ref); [discriminate|]. destruct (fkey_eqb k Flinemarker); [|discriminate]. destruct (filter _ _); discriminate.
Qed.

(** ** All references *)
Lemma build_line_fields f p rs : build_line f p = Ok rs -> Forall2 (built f (p_marker p) (p_raw p)) (p_elements p) rs.
Proof.
  unfold build_line. intros H. apply bind_ok in H as (l & A & H). injection H as <-. apply mapM_ok in A. induction A as [|els r cs rs B A IH]; cbn [concat]; [constructor|].
  apply build_fields in B as (q & -> & B). cbn [app]. constructor; auto.
Qed.
Definition cited (ps : list processed) : list (processed * list el) := flat_map (fun p => map (fun els => (p, els)) (p_elements p)) ps.
Lemma build_references_fields f ps rs : build_references ps f = Ok rs -> Forall2 (fun c r => built f (p_marker (fst c)) (p_raw (fst c)) (snd c) r) (cited ps) rs.
Proof.
  unfold build_references. intros H. apply bind_ok in H as (l & A & H). injection H as <-. apply mapM_ok in A. induction A as [|p r cs rs B A IH]; cbn [concat cited flat_map]; [constructor|].
  apply Forall2_app; auto. apply build_line_fields in B. clear -B. induction B; cbn [map]; constructor; auto.
Qed.
Lemma parse_references_fields E K cb f lines refs stats : parse_references E K cb f lines = Ok (refs, stats) -> exists ps cnt x,
  parse_references_elements E K cb lines = Ok (ps, cnt, x) /\ Forall2 (fun c r => built f (p_marker (fst c)) (p_raw (fst c)) (snd c) r) (cited ps) refs.
Proof.
  unfold parse_references. intros H. destruct (parse_references_elements E K cb lines) as [[[ps cnt] x]|]; [|discriminate]. cbn in H. apply bind_ok in H as (rs & A & H). apply bind_ok in H as (st & _ & H). injection H as <- <-.
  exists ps, cnt, x. split; auto. now apply build_references_fields.
Qed.
Lemma values_in f k els v : In v (values f k els) <-> v <> [] /\ exists e, In e els /\ In (k, v) (contributions f e).
Proof.
  unfold values. rewrite in_map_iff. split.
  - intros ([k' v'] & <- & I). apply filter_In in I as (I & T). apply andb_true_iff in T as (T & N). cbn [fst snd] in *. destruct (fkey_eqb_spec k k') as [<-|]; [|discriminate]. apply in_flat_map in I as (e & I & C). split; [destruct v'; [discriminate|congruence]|]. exists e. auto.
  - intros (N & e & I & C). exists (k, v). split; auto. apply filter_In. split; [apply in_flat_map; eauto|]. cbn [fst snd]. destruct (fkey_eqb_spec k k); [|congruence]. destruct v; [congruence|reflexivity].
Qed.
Lemma Forall2_right {A B} (R : A -> B -> Prop) l l' b : Forall2 R l l' -> In b l' -> exists a, In a l /\ R a b.
Proof. induction 1 as [|x y l l' H F IH]; intros I; [destruct I|]. destruct I as [->|I]; [exists x; split; auto; now left|]. destruct (IH I) as (a & Ia & Ra). exists a. split; auto. now right. Qed.
(** every identifier carries its scheme, and no reference has more descriptions of addresses than addresses *)
Lemma schemes E K cb f lines refs stats r : parse_references E K cb f lines = Ok (refs, stats) -> In r refs ->
  (forall v, In v (field Fdoi r) -> exists d, v = py "doi:" ++ d) /\ (forall v, In v (field Fhdl r) -> exists d, v = py "hdl:" ++ d).
Proof.
  intros H I. apply parse_references_fields in H as (ps & cnt & x & _ & F). destruct (Forall2_right _ _ _ _ F I) as ([p els] & _ & _ & _ & B & _). cbn [fst snd] in B.
  split; intros v Iv; rewrite B in Iv by discriminate; apply values_in in Iv as (_ & e & _ & C); unfold contributions in C; (destruct C as [C|C]; [discriminate|]);
    destruct (e_type e); try (destruct (eqs _ _) in C); cbn [In] in C; decompose [or] C; try contradiction; try discriminate.
  all: match goal with H : (_, _) = (_, ?v) |- _ => injection H as H; subst v; eexists; reflexivity end.
Qed.
