(** Proofs about paths. *)
From Coq Require Import List NArith Bool String Ascii Lia.
From Verif Require Import Base DieModel NameModel NameSpec.
Import ListNotations.
Local Open Scope string_scope.

Lemma pieces_slash r : pieces (String "/" r) = "" :: pieces r.
Proof. reflexivity. Qed.
Lemma pieces_other c r : c <> "/"%char ->
  pieces (String c r) = match pieces r with h :: t => String c h :: t | [] => [] end.
Proof. intros H. cbn [pieces]. destruct c as [[] [] [] [] [] [] [] []]; try reflexivity. now contradiction H. Qed.

Lemma pieces_app a b : pieces (a ++ String "/" b) = (pieces a ++ pieces b)%list.
Proof.
  induction a as [|c a IH]; [reflexivity|].
  change (String c a ++ String "/" b) with (String c (a ++ String "/" b)).
  destruct (ascii_dec c "/") as [->|N].
  - rewrite !pieces_slash, IH. reflexivity.
  - rewrite !pieces_other by exact N. rewrite IH. destruct (pieces a) as [|h t] eqn:E; [|reflexivity].
    exfalso. clear - E. destruct a as [|c a]; [discriminate|]. revert c E.
    assert (X : forall s, pieces s <> []).
    { induction s as [|c s IHs]; [discriminate|]. destruct (ascii_dec c "/") as [->|N]; [discriminate|].
      rewrite pieces_other by exact N. destruct (pieces s); [congruence|discriminate]. }
    intros c E. exact (X _ E).
Qed.

Lemma components_app a b : components (a ++ "/" ++ b) = (components a ++ components b)%list.
Proof. unfold components. change ("/" ++ b) with (String "/" b). now rewrite pieces_app, filter_app. Qed.

Lemma app_assoc_str (a b c : string) : (a ++ b) ++ c = a ++ b ++ c.
Proof. induction a as [|x a IH]; [reflexivity|]. cbn. now rewrite IH. Qed.
Lemma app_nil_str (a : string) : a ++ "" = a.
Proof. induction a as [|x a IH]; [reflexivity|]. cbn. now rewrite IH. Qed.

Lemma last_slash s : last_is slash s = true -> exists r, s = r ++ "/".
Proof.
  induction s as [|c s IH]; [discriminate|]. destruct s as [|d s].
  - cbn. intros H. apply Ascii.eqb_eq in H as ->. now exists "".
  - intros H. destruct (IH H) as [r E]. exists (String c r). rewrite E. reflexivity.
Qed.

(** A directory with a slash added if there is none. *)
Lemma components_dir d f :
  components (d ++ (if last_is slash d then "" else "/") ++ f) = (components d ++ components f)%list.
Proof.
  destruct (last_is slash d) eqn:L; [|apply components_app].
  apply last_slash in L as [r ->]. cbn [append]. rewrite app_assoc_str, components_app.
  change (r ++ "/") with (r ++ "/" ++ ""). rewrite components_app. cbn. now rewrite app_nil_r.
Qed.

Lemma absolute_spec d : is_absolute d = true <-> rooted d \/ with_drive d.
Proof.
  unfold is_absolute, rooted, with_drive. rewrite orb_true_iff. split.
  - intros [H|H].
    + destruct d as [|c d]; [discriminate|]. cbn in H. apply Ascii.eqb_eq in H as ->. left. now exists d.
    + destruct d as [|c [|e d]]; try discriminate. cbn in H. apply Ascii.eqb_eq in H as ->. right. now exists c, d.
  - intros [[r ->]|(c & r & ->)]; [now left|now right].
Qed.

Lemma source_path_spec ud so f : so_file so = Some f ->
  exists p d, source_path ud so = Some p /\ directory_of ud (so_directory so) d /\
    components p = (d ++ components f)%list.
Proof.
  intros E. unfold source_path. rewrite E. destruct (so_directory so) as [d|].
  2:{ eexists _, []. split; [reflexivity|]. split; [constructor|reflexivity]. }
  destruct (is_absolute d) eqn:A.
  - eexists _, _. split; [reflexivity|]. split; [apply do_absolute; now apply absolute_spec|].
    cbn [append]. rewrite app_assoc_str. apply components_dir.
  - assert (N : ~ (rooted d \/ with_drive d)) by (rewrite <- absolute_spec, A; discriminate).
    eexists _, _. split; [reflexivity|]. split; [apply do_relative; tauto|].
    destruct ud as [u|]; cbn [components_of].
    + rewrite !app_assoc_str, components_dir, components_dir, app_assoc. reflexivity.
    + cbn [append]. rewrite app_assoc_str. apply components_dir.
Qed.

Lemma first_rooted s : first_is slash s = true <-> rooted s.
Proof.
  unfold rooted. split.
  - destruct s as [|c s]; [discriminate|]. cbn. intros H. apply Ascii.eqb_eq in H as ->. now exists s.
  - now intros [r ->].
Qed.

Lemma rooted_app a b : a <> "" -> (rooted (a ++ b) <-> rooted a).
Proof.
  destruct a as [|c a]; [congruence|]. intros _. unfold rooted. cbn. split.
  - intros [r [= -> _]]. now exists a.
  - intros [r [= -> _]]. now exists (a ++ b).
Qed.

Lemma source_rooted ud so f p : so_file so = Some f -> f <> "" -> so_directory so <> Some "" -> ud <> Some "" ->
  source_path ud so = Some p ->
  (rooted p <->
   match so_directory so with
   | Some d => rooted d \/ (~ with_drive d /\ exists u, ud = Some u /\ rooted u)
   | None => rooted f
   end).
Proof.
  intros Ef Nf Nd Nu. unfold source_path. rewrite Ef. intros [= <-].
  destruct (so_directory so) as [d|]; [|reflexivity].
  assert (d <> "") by congruence.
  destruct (is_absolute d) eqn:A.
  - apply absolute_spec in A. cbn [append]. rewrite app_assoc_str, rooted_app by assumption.
    split; [now left|]. intros [|[N _]]; [assumption|]. tauto.
  - assert (N : ~ (rooted d \/ with_drive d)) by (rewrite <- absolute_spec, A; discriminate).
    destruct ud as [u|].
    + assert (u <> "") by congruence. rewrite !app_assoc_str, rooted_app by assumption. split.
      * intros R. right. split; [tauto|]. now exists u.
      * intros [|[_ (v & [= <-] & R)]]; [tauto|exact R].
    + cbn [append]. rewrite app_assoc_str, rooted_app by assumption. split; [now left|].
      intros [|[_ (v & E & _)]]; [assumption|discriminate].
Qed.

Lemma unit_ref_spec name dir :
  components (unit_ref (Some name) dir) =
  ((if first_is slash name then [] else components_of dir) ++ components name)%list.
Proof.
  unfold unit_ref. cbn [or_else]. destruct (first_is slash name); [reflexivity|].
  destruct dir as [d|]; cbn [or_else components_of]; [|reflexivity].
  destruct d as [|c d]; [reflexivity|]. rewrite app_assoc_str. apply components_dir.
Qed.
