From Coq Require Import List Arith NArith ZArith Bool String Ascii Lia.
From Verif Require Import Base BaseProofs NamespaceModel NamespaceSpec.
Import ListNotations.

Lemma namespace_ind' (P : namespace -> Prop) :
  (forall n k, P (Ns None n k)) ->
  (forall p n k, P p -> P (Ns (Some p) n k)) ->
  forall n, P n.
Proof.
  intros H1 H2. fix IH 1. intros [[p|] n k]; [apply H2, IH|apply H1].
Qed.

Fixpoint ns_path (n : namespace) : list (option string) :=
  match n with Ns p name _ => match p with Some q => ns_path q | None => [] end ++ [name] end.

Definition ns_path_opt (n : option namespace) :=
  match n with Some n => ns_path n | None => [] end.

Lemma path_of_ns_path n l : path_of n l <-> l = ns_path n.
Proof.
  split.
  - induction 1; cbn; congruence.
  - intros ->. induction n using namespace_ind'; cbn; constructor; auto.
Qed.

Lemma path_opt_ns_path n l : path_opt n l <-> l = ns_path_opt n.
Proof.
  split.
  - destruct 1; cbn; auto. now apply path_of_ns_path.
  - intros ->. destruct n; constructor. now apply path_of_ns_path.
Qed.

Lemma ns_path_len n : List.length (ns_path n) = ns_len n.
Proof.
  induction n using namespace_ind'; cbn; auto. rewrite app_length. cbn. lia.
Qed.

Lemma ns_len_pos n : 1 <= ns_len n.
Proof. destruct n as [[]]; cbn; lia. Qed.

Lemma ns_path_nonempty n : ns_path n <> [].
Proof. intros E. apply (f_equal (@List.length _)) in E. rewrite ns_path_len in E.
  pose proof (ns_len_pos n). cbn in *. lia. Qed.

Lemma ns_up_path k : forall n, k < ns_len n ->
  ns_path (ns_up n k) = firstn (ns_len n - k) (ns_path n).
Proof.
  induction k; intros n H.
  - cbn. rewrite Nat.sub_0_r, <- ns_path_len, firstn_all. auto.
  - destruct n as [[p|] name kind]; cbn in *; [|lia].
    rewrite IHk by lia. rewrite firstn_app, ns_path_len.
    replace (ns_len p + 1 - S k - ns_len p) with 0 by lia. cbn. rewrite app_nil_r.
    f_equal. lia.
Qed.

(** ** Filtering *)

(** The components consumed so far match. *)
Lemma is_within'_spec path n :
  if fst (ns_is_within' n path)
  then snd (ns_is_within' n path) = Nat.min (ns_len n) (List.length path)
       /\ firstn (List.length path) (ns_path n) = map Some (firstn (ns_len n) path)
  else firstn (List.length path) (ns_path n) <> map Some (firstn (ns_len n) path).
Proof.
  assert (STEP : forall l name, List.length l < List.length path ->
     firstn (List.length path) l = map Some (firstn (List.length l) path) ->
     (firstn (List.length path) (l ++ [name]) = map Some (firstn (List.length l + 1) path)
      <-> name = option_map (fun x => x) (nth_error path (List.length l)) /\ name <> None)).
  { intros l name Hl E.
    rewrite firstn_all2 in E by lia.
    rewrite firstn_all2 by (rewrite app_length; cbn; lia).
    destruct (nth_error path (List.length l)) as [s|] eqn:N;
      [|apply nth_error_None in N; lia].
    apply nth_error_split in N as (p1 & p2 & -> & Hp).
    rewrite <- Hp. rewrite firstn_app.
    replace (List.length p1 + 1 - List.length p1) with 1 by lia.
    rewrite (firstn_all2 (n := List.length p1 + 1)) by lia.
    rewrite <- Hp in E. rewrite firstn_app, Nat.sub_diag, firstn_O, app_nil_r, firstn_all in E.
    rewrite E, map_app. cbn. split.
    - intros F. apply app_inj_tail in F as [_ ->]. split; congruence.
    - intros [-> _]. reflexivity. }
  assert (FIN : forall name ret offset l, 
    (if ret : bool then offset = Nat.min (List.length l) (List.length path) /\
         firstn (List.length path) l = map Some (firstn (List.length l) path)
     else firstn (List.length path) l <> map Some (firstn (List.length l) path)) ->
    let r := (if ret then
        if offset <? List.length path then
          match name with
          | Some s =>
              (match nth_error path offset with Some t => String.eqb s t | None => false end,
               offset + 1)
          | None => (false, offset + 1)
          end
        else (true, offset)
      else (false, O)) in
    if fst r then snd r = Nat.min (List.length l + 1) (List.length path) /\
         firstn (List.length path) (l ++ [name]) = map Some (firstn (List.length l + 1) path)
     else firstn (List.length path) (l ++ [name]) <> map Some (firstn (List.length l + 1) path)).
  { intros name [] offset l H.
    - destruct H as [-> E].
      destruct (Nat.ltb_spec (Nat.min (List.length l) (List.length path)) (List.length path)) as [L|L].
      + replace (Nat.min (List.length l) (List.length path)) with (List.length l) in * by lia.
        specialize (STEP l name L E).
        destruct name as [s|]; cbn.
        * destruct (nth_error path (List.length l)) as [t|] eqn:N.
          -- cbn in STEP. destruct (String.eqb_spec s t).
             ++ split; [lia|]. apply STEP. split; congruence.
             ++ rewrite STEP. intros [F _]. congruence.
          -- apply nth_error_None in N. lia.
        * rewrite STEP. tauto.
      + cbn. split; [lia|]. rewrite firstn_app, E.
        replace (List.length path - List.length l) with 0 by lia. rewrite app_nil_r.
        rewrite !(firstn_all2 path) by lia. auto.
    - cbn. intros F. apply H.
      destruct (Nat.le_gt_cases (List.length path) (List.length l)) as [L|L].
      + rewrite firstn_app in F. replace (List.length path - List.length l) with 0 in F by lia.
        rewrite app_nil_r in F. rewrite F. f_equal. rewrite !(firstn_all2 path) by lia. auto.
      + rewrite firstn_all2 in F by (rewrite app_length; cbn; lia).
        rewrite firstn_all2 by lia.
        apply (f_equal (firstn (List.length l))) in F.
        rewrite firstn_app, Nat.sub_diag, firstn_all, app_nil_r in F.
        etransitivity; [exact F|]. rewrite firstn_map, firstn_firstn.
        do 2 f_equal. lia. }
  induction n using namespace_ind'.
  - specialize (FIN n true 0 []). cbn in FIN |- *. apply FIN. rewrite firstn_nil; auto.
  - rewrite <- ns_path_len in IHn. cbn [ns_is_within' ns_path ns_len].
    rewrite <- ns_path_len.
    destruct (ns_is_within' n path) as [ret offset] eqn:E. cbn in IHn.
    specialize (FIN n0 ret offset (ns_path n) IHn). exact FIN.
Qed.

Lemma is_within_spec n path :
  ns_is_within n path = true <-> exists rest, ns_path n = map Some path ++ rest.
Proof.
  unfold ns_is_within. pose proof (is_within'_spec path n) as H.
  destruct (ns_is_within' n path) as [ret offset]. cbn in H.
  destruct ret; cbn.
  - destruct H as [-> E]. rewrite Nat.eqb_eq. split.
    + intros L. assert (List.length path <= ns_len n) by lia.
      rewrite (firstn_all2 path) in E by lia.
      exists (skipn (List.length path) (ns_path n)). rewrite <- E. symmetry. apply firstn_skipn.
    + intros [rest R]. apply (f_equal (@List.length _)) in R.
      rewrite app_length, map_length, ns_path_len in R. lia.
  - split; [discriminate|]. intros [rest R]. exfalso. apply H.
    assert (List.length path <= ns_len n).
    { apply (f_equal (@List.length _)) in R.
      rewrite app_length, map_length, ns_path_len in R. lia. }
    rewrite (firstn_all2 path) by lia. rewrite R, firstn_app, map_length, Nat.sub_diag, app_nil_r.
    rewrite <- (map_length Some) at 1. apply firstn_all.
Qed.

(** ** Comparison *)

Lemma cmp_name_eq a b : cmp_name a b = Eq <-> a = b.
Proof. apply cmp_option_eq. apply cmp_string_eq. Qed.

Lemma cmp_name_tp : total_preorder cmp_name.
Proof. apply cmp_option_tp, cmp_string_tp. Qed.

Lemma cmp_list_lt {A} (cmp : A -> A -> comparison) lt :
  (forall x y, cmp x y = Eq <-> x = y) -> (forall x y, cmp x y = Lt <-> lt x y) ->
  (forall x, cmp x x = Eq) ->
  forall l m, cmp_list cmp l m = Lt <-> dict_lt lt l m.
Proof.
  intros E L R. induction l as [|a l IH]; destruct m as [|b m]; cbn; split; try congruence.
  - intros F. inversion F.
  - constructor.
  - intros F. inversion F.
  - destruct (cmp a b) eqn:C; cbn; try congruence.
    + apply E in C. subst b. intros F. apply dict_tail. now apply IH.
    + intros _. apply dict_head. now apply L.
  - intros F. inversion F; subst.
    + assert (cmp a b = Lt) as -> by (now apply L). reflexivity.
    + rewrite R. cbn. now apply IH.
Qed.

Lemma cmp_string_list s t :
  cmp_string s t =
  cmp_list (fun a b => N.compare (N_of_ascii a) (N_of_ascii b))
    (list_ascii_of_string s) (list_ascii_of_string t).
Proof. revert t. induction s; destruct t; cbn; auto. now rewrite IHs. Qed.

Lemma ascii_compare_eq a b : N.compare (N_of_ascii a) (N_of_ascii b) = Eq <-> a = b.
Proof.
  rewrite N.compare_eq_iff. split; [|congruence]. intros H.
  apply (f_equal ascii_of_N) in H. now rewrite !ascii_N_embedding in H.
Qed.

Lemma cmp_string_lt s t : cmp_string s t = Lt <-> string_lt s t.
Proof.
  rewrite cmp_string_list. unfold string_lt. apply cmp_list_lt.
  - apply ascii_compare_eq.
  - intros x y. unfold byte_lt. apply N.compare_lt_iff.
  - intros x. apply N.compare_refl.
Qed.

Lemma cmp_name_lt a b : cmp_name a b = Lt <-> name_lt a b.
Proof.
  unfold cmp_name. destruct a as [s|], b as [t|]; cbn; split; try congruence.
  - intros H. constructor. now apply cmp_string_lt.
  - intros H. inversion H; subst. now apply cmp_string_lt.
  - intros H. inversion H.
  - constructor.
  - intros H. inversion H.
Qed.

Lemma ns_cmp'_spec a : forall b, ns_len a = ns_len b ->
  ns_cmp' a b = Some (cmp_list cmp_name (ns_path a) (ns_path b)).
Proof.
  induction a using namespace_ind'; intros [[q|] m k'] E; cbn in E |- *.
  - pose proof (ns_len_pos q). lia.
  - destruct (cmp_name n m); reflexivity.
  - rewrite E, Nat.eqb_refl. rewrite IHa by lia.
    rewrite cmp_list_app by (rewrite !ns_path_len; lia).
    destruct (cmp_list cmp_name (ns_path a) (ns_path q)); cbn; auto.
    destruct (cmp_name n m); auto.
  - pose proof (ns_len_pos a). lia.
Qed.

Lemma cmp_list_shorter {A} (cmp : A -> A -> comparison) l m :
  List.length l < List.length m ->
  cmp_list cmp l m =
  match cmp_list cmp l (firstn (List.length l) m) with Eq => Lt | o => o end.
Proof.
  intros H. rewrite <- (firstn_skipn (List.length l) m) at 1.
  rewrite <- (app_nil_r l) at 1. rewrite cmp_list_app.
  2: { rewrite firstn_length. lia. }
  destruct (skipn (List.length l) m) eqn:S.
  - apply (f_equal (@List.length _)) in S. rewrite skipn_length in S. cbn in S. lia.
  - cbn. destruct (cmp_list _ _ _); reflexivity.
Qed.

Lemma ns_cmp_spec a b : ns_cmp a b = Some (cmp_list cmp_name (ns_path a) (ns_path b)).
Proof.
  unfold ns_cmp. pose proof (ns_len_pos a). pose proof (ns_len_pos b).
  destruct (Nat.compare_spec (ns_len a) (ns_len b)) as [E|L|G].
  - now apply ns_cmp'_spec.
  - assert (P : ns_path (ns_up b (ns_len b - ns_len a)) = firstn (ns_len a) (ns_path b)).
    { rewrite ns_up_path by lia. f_equal. lia. }
    rewrite ns_cmp'_spec.
    2: { rewrite <- (ns_path_len (ns_up _ _)), P, firstn_length, ns_path_len. lia. }
    rewrite P, (cmp_list_shorter cmp_name (ns_path a) (ns_path b)) by (rewrite !ns_path_len; lia).
    rewrite ns_path_len. destruct (cmp_list _ _ _); reflexivity.
  - assert (P : ns_path (ns_up a (ns_len a - ns_len b)) = firstn (ns_len b) (ns_path a)).
    { rewrite ns_up_path by lia. f_equal. lia. }
    rewrite ns_cmp'_spec.
    2: { rewrite <- (ns_path_len (ns_up _ _)), P, firstn_length, ns_path_len. lia. }
    rewrite P. pose proof (cmp_list_tp _ cmp_name_tp) as T.
    rewrite (tp_sym _ T (ns_path b) (ns_path a)).
    rewrite (tp_sym _ T (ns_path b)).
    rewrite (cmp_list_shorter cmp_name (ns_path b) (ns_path a)) by (rewrite !ns_path_len; lia).
    rewrite ns_path_len. destruct (cmp_list _ _ _); reflexivity.
Qed.

(** The comparison as a function of (path, name). *)
Definition cmp_item (x y : list (option string) * option string) : comparison :=
  then_with (cmp_list cmp_name (fst x) (fst y)) (cmp_name (snd x) (snd y)).

Lemma cmp_ns_and_name_spec n1 a n2 b :
  cmp_ns_and_name n1 a n2 b = Some (cmp_item (ns_path_opt n1, a) (ns_path_opt n2, b)).
Proof.
  unfold cmp_item. destruct n1 as [n1|], n2 as [n2|]; cbn.
  - rewrite ns_cmp_spec. destruct (cmp_list _ _ _); reflexivity.
  - pose proof (ns_path_nonempty n1). destruct (ns_path n1); [congruence|reflexivity].
  - pose proof (ns_path_nonempty n2). destruct (ns_path n2); [congruence|reflexivity].
  - reflexivity.
Qed.

Lemma cmp_item_tp : total_preorder cmp_item.
Proof.
  unfold cmp_item. apply then_with_tp.
  - apply (cmp_on_tp fst), cmp_list_tp, cmp_name_tp.
  - apply (cmp_on_tp snd), cmp_name_tp.
Qed.

Lemma cmp_item_eq x y : cmp_item x y = Eq <-> x = y.
Proof.
  destruct x as [p a], y as [q b]. unfold cmp_item. cbn. split.
  - destruct (cmp_list _ _ _) eqn:E; cbn; try discriminate. intros F.
    apply cmp_list_eq in E; [|apply cmp_name_eq]. apply cmp_name_eq in F. congruence.
  - intros [= -> ->].
    assert (cmp_list cmp_name q q = Eq) as -> by (apply cmp_list_eq; auto using cmp_name_eq).
    now apply cmp_name_eq.
Qed.

Lemma cmp_item_lt x y : cmp_item x y = Lt <-> item_lt x y.
Proof.
  destruct x as [p a], y as [q b]. unfold cmp_item. cbn.
  assert (D : forall l m, cmp_list cmp_name l m = Lt <-> dict_lt name_lt l m).
  { apply cmp_list_lt; [apply cmp_name_eq|apply cmp_name_lt|].
    intros x. now apply cmp_name_eq. }
  split.
  - destruct (cmp_list _ _ _) eqn:E; cbn; try discriminate.
    + apply cmp_list_eq in E; [|apply cmp_name_eq]. subst q. intros F.
      apply item_name. now apply cmp_name_lt.
    + intros _. apply item_path. now apply D.
  - intros H. inversion H; subst.
    + assert (cmp_list cmp_name p q = Lt) as -> by (now apply D). reflexivity.
    + assert (cmp_list cmp_name q q = Eq) as -> by (apply cmp_list_eq; auto using cmp_name_eq).
      now apply cmp_name_lt.
Qed.
