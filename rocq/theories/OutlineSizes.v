(** The outline of the page of the report of sizes. *)
From Coq Require Import List Arith NArith Bool String.
From Verif Require Import Base PrintModel PrintSpec NameModel CodeModel BloatModel OutlineSpec OutlineProofs OutlineNeat RangeModel TypeModel FileModel DieModel WholeModel RunModel CodeModel BloatModel.
Import ListNotations.
Local Open Scope list_scope.

Section Sizes.
  Variable short : text -> text.
  Variable units : list sized_unit.
  Hypothesis NAMED : forall u f, In u units -> In f (su_functions u) -> sf_name f <> Some ""%string.

  Lemma neat_seq l : Forall (neat short) l -> neat short (seq_docs l).
  Proof. induction 1; cbn; [exact I|now split]. Qed.
  Lemma done_neat {A} (f : A -> outcome pdoc) l : (forall x e, f x = Done e -> neat short e) ->
    forall r, all_done (map f l) = Done r -> Forall (neat short) r.
  Proof.
    intros H. induction l as [|x l IH]; intros r E; cbn [map all_done] in E.
    - injection E as <-. constructor.
    - destruct (f x) as [a|] eqn:F; [|discriminate]. destruct (all_done (map f l)) as [s|]; [|discriminate]. injection E as <-.
      constructor; [exact (H _ _ F)|now apply IH].
  Qed.
  Lemma dec_full n t : dec n ++ t <> [].
  Proof. unfold dec. destruct (N.to_uint n); discriminate. Qed.

  Lemma neat_caller p e : caller_line units p = Done e -> neat short e.
  Proof.
    unfold caller_line, at_position. destruct (nth_error units (fst p)) as [u|] eqn:U; [|discriminate].
    destruct (nth_error (su_functions u) (snd p)) as [f|] eqn:F; [|discriminate]. intros E. injection E as <-. cbn [neat]. apply solid_full.
    pose proof (NAMED u f (nth_error_In _ _ U) (nth_error_In _ _ F)) as N. intros E. unfold ref_value, qualified in E.
    cbn [text_value] in E. apply app_eq_nil in E. destruct E as [E _]. apply app_eq_nil in E. destruct E as [_ E].
    destruct (sf_name f) as [[|c n]|]; [now destruct N|discriminate|discriminate].
  Qed.
  Lemma neat_sizes totals m d : bloat_doc units totals m = Done d -> neat short d.
  Proof.
    unfold bloat_doc. intros E. destruct (all_done _) as [l|] eqn:D; [|discriminate]. injection E as <-. apply neat_seq.
    refine (done_neat _ _ _ _ D). intros t e F. unfold total_doc in F.
    match type of F with context [all_done ?z] => destruct (all_done z) as [xs|] eqn:X end; [|discriminate]. injection F as <-.
    split; [eexists; split; [reflexivity|]; apply solid_full, dec_full|]. apply neat_seq. refine (done_neat _ _ _ _ X). intros p e F.
    unfold copy_doc in F. destruct (at_position units p) as [[u f]|]; [|discriminate].
    destruct (opt64_get (sf_address f)); [|discriminate]. destruct (opt64_get (sf_size f)); [|discriminate].
    destruct (bloat_callers _ _ _) as [c|] eqn:BC; [|discriminate]. injection F as <-. split; [eexists; split; [reflexivity|apply dec_full]|].
    unfold bloat_callers in BC. match type of BC with context [all_done ?z] => destruct (all_done z) as [ys|] eqn:Y end; [|discriminate]. injection BC as <-.
    apply neat_seq. refine (done_neat _ _ _ _ Y). intros q e. apply neat_caller.
  Qed.
End Sizes.

Lemma neat_report short ca ob order d :
  (forall u f, In u (loaded_units ca ob) -> In f (un_functions u) -> fn_name f <> Some ""%string) ->
  size_report ca ob order = Done d -> neat short d.
Proof.
  intros NAMED. unfold size_report. destruct (size_callers ca ob) as [m|]; [|discriminate]. apply neat_sizes.
  intros u f U F. unfold sized_units in U. apply in_map_iff in U. destruct U as (u0 & <- & U). cbn [sized_unit_of su_functions] in F.
  apply in_map_iff in F. destruct F as (f0 & <- & F). exact (NAMED u0 f0 U F).
Qed.
