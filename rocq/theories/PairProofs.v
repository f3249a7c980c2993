(** Proofs about a whole run over two files: the comparison of types and parameters. *)
From Coq Require Import List Arith NArith ZArith Bool String Lia Permutation.
From Verif Require Import Base BaseProofs NamespaceModel TypeModel TypeSpec TypeProofs FileModel FilterModel FilterProofs
  DiffModel PrintModel PropertiesListing DieModel DieSpec RefModel ItemModel ItemSpec EntryModel ReportModel WholeModel WholeSpec WholeProofs WholeDepth WholeShown PairModel.
Import ListNotations.

Section Pair.
  Variables a b : object_input.
  Hypothesis WA : well_formed a.
  Hypothesis WB : well_formed b.
  Hypothesis AA : acyclic_types a.
  Hypothesis AB : acyclic_types b.

  Definition one_of (x : object_input) : Prop := x = a \/ x = b.
  Lemma pair_bounded x t : one_of x -> bounded (pair_limit a b) (type_at x) t.
  Proof.
    intros [->| ->]; [apply (bounded_mono (S (S (List.length (places a)))))|apply (bounded_mono (S (S (List.length (places b)))))];
      try (now apply type_bounded); unfold pair_limit; rewrite places_length, ?depth_limit_eq; lia.
  Qed.
  Lemma types_compare_eq x s y t : one_of x -> types_compare a b x s y t = cmp_n (pair_limit a b) (type_at x, s) (type_at y, t).
  Proof.
    intros I. unfold types_compare. now rewrite cmp_id_spec by (left; now apply pair_bounded).
  Qed.
  Lemma types_compare_compares x s y t c : one_of x -> compares false (type_at x, s) (type_at y, t) c -> types_compare a b x s y t = c.
  Proof.
    intros I H. rewrite types_compare_eq by exact I. symmetry.
    apply (compares_iff _ _ c (pair_limit a b)); [|exact H]. left. now apply pair_bounded.
  Qed.

  (** Parameters of either file. *)
  Definition pick (s : bool) : object_input := if s then a else b.
  Lemma pick_one s : one_of (pick s).
  Proof. destruct s; [now left|now right]. Qed.
  Lemma parameter_tp : total_preorder (fun p q : bool * parameter_type =>
    parameter_compare_in a b (pick (fst p)) (snd p) (pick (fst q)) (snd q)).
  Proof.
    pose proof (cmp_n_tp (pair_limit a b)) as T.
    assert (E : forall p q : bool * parameter_type, parameter_compare_in a b (pick (fst p)) (snd p) (pick (fst q)) (snd q) =
      match from_offset (type_at (pick (fst p))) (pt_ty (snd p)), from_offset (type_at (pick (fst q))) (pt_ty (snd q)) with
      | Some s, Some t => cmp_n (pair_limit a b) (type_at (pick (fst p)), s) (type_at (pick (fst q)), t)
      | Some _, None => Lt | None, Some _ => Gt | None, None => Eq end).
    { intros p q. unfold parameter_compare_in. destruct (from_offset _ _); [|reflexivity]. destruct (from_offset _ _); [|reflexivity].
      apply types_compare_eq, pick_one. }
    split; intros; rewrite ?E in *.
    - destruct (from_offset _ _); [apply (tp_refl _ T)|reflexivity].
    - destruct (from_offset (type_at (pick (fst x))) _), (from_offset (type_at (pick (fst y))) _); try reflexivity. apply (tp_sym _ T).
    - destruct (from_offset (type_at (pick (fst x))) _), (from_offset (type_at (pick (fst y))) _), (from_offset (type_at (pick (fst z))) _);
        try congruence. eapply (tp_trans _ T); eauto.
  Qed.
  Lemma parameters_list s l : forall t m, parameters_compare_in a b (pick s) l (pick t) m =
    cmp_list (fun p q : bool * parameter_type => parameter_compare_in a b (pick (fst p)) (snd p) (pick (fst q)) (snd q))
      (map (pair s) l) (map (pair t) m).
  Proof.
    induction l as [|p l IH]; intros t [|q m]; try reflexivity. cbn [parameters_compare_in map cmp_list then_with fst snd].
    rewrite IH. now destruct (parameter_compare_in _ _ _ _ _ _).
  Qed.
  Lemma pair_consistent : consistent (compare_parameters_in a b).
  Proof.
    pose proof (cmp_list_tp _ parameter_tp) as P.
    assert (S : forall h, exists s, side_of a b h = pick s).
    { intros h. exists (String.eqb (h_path h) (ob_path a)). reflexivity. }
    assert (K : exists key, forall x y, on_pairs (compare_parameters_in a b) x y = cmp_list
      (fun p q : bool * parameter_type => parameter_compare_in a b (pick (fst p)) (snd p) (pick (fst q)) (snd q)) (key x) (key y)).
    { exists (fun x : hash * func => map (pair (String.eqb (h_path (fst x)) (ob_path a))) (parameters_of (side_of a b (fst x)) (snd x))).
      intros x y. unfold on_pairs, compare_parameters_in. rewrite <- parameters_list. reflexivity. }
    destruct K as (key & K). unfold consistent. split; intros; rewrite ?K in *.
    - apply (tp_refl _ P).
    - apply (tp_sym _ P).
    - eapply (tp_trans _ P); eauto.
  Qed.
  Lemma pair_compares ca cb : compares_types (ss_sides (is_scenes (load_two a b ca cb))).
  Proof. intros s t c H. apply types_compare_compares; [now left|exact H]. Qed.
End Pair.

(** The file that a hash is for. *)
Lemma side_a a b : side_of a b (file_hash a) = a.
Proof. unfold side_of. cbn [file_hash h_path]. now rewrite String.eqb_refl. Qed.
Lemma side_b a b : ob_path a <> ob_path b -> side_of a b (file_hash b) = b.
Proof. intros N. unfold side_of. cbn [file_hash h_path]. destruct (String.eqb_spec (ob_path b) (ob_path a)); [congruence|reflexivity]. Qed.

(** Within one file the comparison is that of one file. *)
Lemma print_file_ext o pc pc' fuel im : (forall f g, pc (im_hash im) f (im_hash im) g = pc' (im_hash im) f (im_hash im) g) ->
  print_file o pc fuel im = print_file o pc' fuel im.
Proof.
  intros H. assert (L : forall l, print_list (function_cmp_by o pc) (im_hash im) l = print_list (function_cmp_by o pc') (im_hash im) l).
  { intros l. unfold print_list. apply stable_sort_ext. intros x y _ _. unfold function_cmp_by, function_cmp_for_sort. now rewrite H. }
  assert (U : forall u, print_unit o pc fuel im u = print_unit o pc' fuel im u).
  { intros u. unfold print_unit, print_unit_body, print_functions, print_some_functions, printed_functions. now rewrite !L. }
  unfold print_file. assert (A : forall l, all_printed (print_unit o pc fuel im) l = all_printed (print_unit o pc' fuel im) l).
  { induction l as [|u l IH]; [reflexivity|]. cbn [all_printed]. now rewrite U, IH. }
  now rewrite A.
Qed.
Section One.
  Variables a b x : object_input.
  Hypothesis WX : well_formed x.
  Hypothesis AX : acyclic_types x.
  Hypothesis ONE : one_of a b x.
  Hypothesis SIDE : side_of a b (file_hash x) = x.
  Lemma types_compare_one s t : types_compare a b x s x t = type_compare x s t.
  Proof.
    unfold types_compare, type_compare.
    assert (LE : (S (S (List.length (places x))) <= pair_limit a b)%nat).
    { destruct ONE as [-> | ->]; unfold pair_limit; rewrite places_length, ?depth_limit_eq; lia. }
    rewrite cmp_id_spec by (left; apply (bounded_mono _ _ _ _ LE); now apply type_bounded).
    now rewrite <- (type_compare_eq x WX AX s t (pair_limit a b) LE).
  Qed.
  Lemma compare_parameters_one f g : compare_parameters_in a b (file_hash x) f (file_hash x) g = compare_parameters x (file_hash x) f (file_hash x) g.
  Proof.
    unfold compare_parameters_in, compare_parameters. rewrite SIDE. generalize (parameters_of x f) (parameters_of x g). intros l.
    induction l as [|p l IH]; intros [|q m]; try reflexivity. cbn [parameters_compare_in parameters_compare]. rewrite IH.
    replace (parameter_compare_in a b x p x q) with (parameter_compare x p q); [reflexivity|].
    unfold parameter_compare_in, parameter_compare. destruct (from_offset _ _); [|reflexivity]. destruct (from_offset _ _); [|reflexivity].
    symmetry. apply types_compare_one.
  Qed.
  Lemma print_file_one o fuel choice : print_file o (compare_parameters_in a b) fuel (load choice x) = print_file o (compare_parameters x) fuel (load choice x).
  Proof. apply print_file_ext. exact compare_parameters_one. Qed.
End One.
