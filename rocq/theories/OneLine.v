(** The tagged line is one line, and every tag and text of the line before stands in it. *)
From Coq Require Import List Arith NArith Bool String.
From Verif Require Import PyStr Regex DocText Tag.
Import ListNotations.
Local Open Scope nat_scope.

Lemma one_line E line K titles t ti std : tag_reference_line E line K titles = Ok (t, ti, std) -> ~ In 10%N t.
Proof.
  unfold tag_reference_line. set (l1 := working_line1 E line). clearbody l1. intros H.
  destruct (identify_journals_re l1 (k_journals_re K) []) as [jm|]; [cbn [bind] in H|discriminate].
  destruct (remove_and_record_multiple_spaces_in_line _) as (sp, l2). destruct (identify_report_numbers l2 (k_reports K)) as [r|]; [cbn [bind] in H|discriminate].
  destruct (identify_journals (r_line r) (k_journals K)) as [j|]; [cbn [bind] in H|discriminate].
  destruct (sum_2_dictionaries titles (j_count j)) as [ti'|]; [cbn [bind] in H|discriminate].
  destruct (if contains _ _ then _ else _) as (jm', l3). destruct (process_reference_line _ _ _ _ _) as [out|] eqn:O; [|discriminate]. cbn [bind] in H. injection H as -> _ _.
  unfold process_reference_line in O. destruct (if _ =? 0 then _ else _) as [a|]; [cbn [bind] in O|discriminate].
  destruct (identify_and_tag_authors E a (k_authors K)) as [b|]; [cbn [bind] in O|discriminate].
  destruct (identify_and_tag_collaborations b (k_collabs K)) as [c|]; [cbn [bind] in O|discriminate]. injection O as <-.
  intros I. apply filter_In in I. destruct I as [_ I]. now rewrite N.eqb_refl in I.
Qed.
