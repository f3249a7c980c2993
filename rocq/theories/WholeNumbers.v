(** Proofs about the numbers of items in a whole run. *)
From Coq Require Import List Arith NArith Bool String Lia.
From Verif Require Import Base BaseProofs RangeModel TypeModel FileModel FileSpec SymbolProofs IdModel IdSpec IdProofs PropertiesIds PropertiesDie
  PropertiesMember LocationModel DieModel DieSpec DieProofs WholeModel WholeSpec WholeProofs WholeShown.
Import ListNotations.
Local Open Scope N_scope.

Definition only_absent (w : unit) : Prop :=
  un_types w = [] /\ (forall f, In f (un_functions w) -> fn_offset f = u64_max) /\
  (forall v, In v (un_variables w) -> va_offset v = u64_max).

Lemma Forall2_length_eq {A B} (R : A -> B -> Prop) l m : Forall2 R l m -> List.length l = List.length m.
Proof. induction 1; cbn; auto. Qed.
Lemma symtab_absent symbols : forall used u, only_absent u -> only_absent (symtab_loop symbols used u).
Proof.
  induction symbols as [|s symbols IH]; intros used u H; [exact H|]. destruct used as [|b used]; [exact H|].
  cbn [symtab_loop]. destruct b; [now apply IH|]. apply IH. destruct H as (T & F & V).
  destruct (sy_kind s); cbn [only_absent]; unfold only_absent; cbn [un_types un_functions un_variables];
    (split; [exact T|]); (split; intros x I); auto; apply in_app_iff in I; destruct I as [I|[<-|[]]]; auto.
Qed.

Section Numbers.
  Variable choice : N -> nat.
  Variable ob : object_input.
  Hypothesis WF : well_formed ob.
  Let symbols := parse_symbols (ob_symbols ob).

  Lemma loaded_last : exists us st unk,
    loaded_units choice ob = (us ++ [st; unk])%list /\ Forall2 (loaded_unit symbols) (parsed_units ob) us /\
    only_absent st /\ only_absent unk.
  Proof.
    destruct (loaded_split choice ob) as (us & st & unk & E & F). exists us, st, unk. split; [exact E|]. split; [exact F|].
    unfold loaded_units, loaded, normalize in E. destruct (map_used _ _ _) as [units used]. cbn [fl_units] in E.
    change [st; unk] with ([st] ++ [unk])%list in E. rewrite app_assoc in E. apply app_inj_tail in E. destruct E as (E & <-).
    apply app_inj_tail in E. destruct E as (_ & <-). split.
    - unfold symtab_unit. apply (symtab_absent _ used (mkUnit (Some "<symtab>"%string) [] [] [] [])).
      repeat split; intros x [].
    - repeat split; intros x [].
  Qed.

  Definition holds_item (w : unit) (off : N) : Prop :=
    In off (map t_offset (un_types w)) \/ In off (map fn_offset (un_functions w)) \/ In off (map va_offset (un_variables w)).

  Lemma holder i w off : nth_error (loaded_units choice ob) i = Some w -> holds_item w off ->
    In off (map t_offset (un_types w)) \/ off <> u64_max ->
    exists u, nth_error (ob_units ob) i = Some u /\ loaded_unit symbols (unit_of ob u) w /\ item_offset ob u off.
  Proof.
    intros E H NA. destruct loaded_last as (us & st & unk & EL & F & A1 & A2).
    assert (AB : only_absent w -> False).
    { intros (T & Fn & V). destruct NA as [NA|NA]; [rewrite T in NA; destruct NA|].
      destruct H as [H|[H|H]]; [rewrite T in H; destruct H| |]; apply in_map_iff in H; destruct H as (x & <- & I); [now apply NA, Fn|now apply NA, V]. }
    assert (L : (i < List.length us)%nat).
    { destruct (Nat.lt_ge_cases i (List.length us)) as [L|L]; [exact L|]. exfalso. rewrite EL, nth_error_app2 in E by exact L.
      destruct (i - List.length us)%nat as [|[|k]]; cbn in E; [injection E as <-; auto|injection E as <-; auto|destruct k; discriminate]. }
    assert (LP : (i < List.length (ob_units ob))%nat).
    { assert (X := Forall2_length_eq _ _ _ F). unfold parsed_units in X. rewrite map_length in X. lia. }
    destruct (nth_error (ob_units ob) i) as [u|] eqn:Eu; [|apply nth_error_None in Eu; lia].
    exists u. split; [reflexivity|]. destruct (loaded_at choice ob i u Eu) as (w' & Ew & LU).
    rewrite E in Ew. injection Ew as <-. split; [exact LU|].
    destruct (loaded_offsets ob u w LU) as (T & Fn & V). unfold item_offset. rewrite <- T, <- Fn, <- V. exact H.
  Qed.

  Lemma same_holder i j w v off : nth_error (loaded_units choice ob) i = Some w -> nth_error (loaded_units choice ob) j = Some v ->
    holds_item w off -> In off (map t_offset (un_types w)) \/ off <> u64_max ->
    holds_item v off -> In off (map t_offset (un_types v)) \/ off <> u64_max -> i = j.
  Proof.
    intros Ew Ev Hw Aw Hv Av. destruct (holder i w off Ew Hw Aw) as (u & Eu & _ & Iu). destruct (holder j v off Ev Hv Av) as (x & Ex & _ & Ix).
    apply (owner_at ob WF i j u x off Eu Ex); apply (item_entry ob WF); auto; eapply nth_error_In; eauto.
  Qed.

  (** The numbers of items. *)
  Lemma id_where_found like x it : names (loaded_units choice ob) x it -> like it = true ->
    exists y jt, names (loaded_units choice ob) y jt /\ like jt = true /\
      print_id_item (loaded_units choice ob) (fst (assign_ids (loaded_units choice ob))) (id_where choice ob like) = Some jt.
  Proof.
    intros N L. unfold id_where. destruct (assign_ids (loaded_units choice ob)) as [ids log] eqn:E. cbn [fst].
    destruct (assigned _ _ _ E) as (EI & _).
    destruct (find _ ids) as [y|] eqn:FD.
    - apply find_some in FD. destruct FD as (Iy & Ly). destruct (item_at (loaded_units choice ob) y) as [jt|] eqn:EJ; [|discriminate].
      exists y, jt. apply names_iff in EJ. split; [exact EJ|]. split; [exact Ly|].
      unfold print_id_item. rewrite (named_at _ _ _ _ _ E EJ). cbn [opt_bind]. now apply names_iff.
    - exfalso. pose proof (find_none _ _ FD x) as X. pose proof N as N'. apply names_iff in N'. cbn in X. rewrite N', L in X.
      discriminate X. rewrite EI. apply all_ids_in. congruence.
  Qed.

  Lemma nth_in_offset {A} (key : A -> N) l k x : nth_error l k = Some x -> In (key x) (map key l).
  Proof. intros E. apply in_map. now apply nth_error_In in E. Qed.

  Lemma type_numbered i k w t : nth_error (loaded_units choice ob) i = Some w -> nth_error (un_types w) k = Some t ->
    print_id_item (loaded_units choice ob) (fst (assign_ids (loaded_units choice ob))) (type_number choice ob t) = Some (ItType w t).
  Proof.
    intros Ew Et. destruct (id_where_found (fun x => match x with ItType _ s => t_offset s =? t_offset t | _ => false end) (IdType i k) (ItType w t))
      as (y & jt & N & L & P); [now constructor|apply N.eqb_refl|].
    unfold type_number. rewrite P. f_equal. inversion N as [|j m v s Ev Es| |]; subst; try discriminate L.
    apply N.eqb_eq in L.
    assert (i = j).
    { apply (same_holder i j w v (t_offset t) Ew Ev); try left; try rewrite <- L; try (now apply (nth_in_offset t_offset _ m));
        rewrite ?L; now apply (nth_in_offset t_offset _ k). }
    subst j. rewrite Ew in Ev. injection Ev as <-. f_equal.
    destruct (holder i w (t_offset t) Ew) as (u & Eu & LU & _); try left; try now apply (nth_in_offset t_offset _ k).
    destruct LU as (_ & _ & T & _). cbn [unit_of un_types] in T.
    destruct (C49_kept _ _ _ (unit_distinct ob WF u (nth_error_In _ _ Eu)) (items_read ob u)) as (D & _). rewrite <- T in D.
    apply (NoDup_map_eq t_offset (un_types w)); [exact D| | |exact L]; eapply nth_error_In; eauto.
  Qed.

  Lemma function_numbered i k w f : nth_error (loaded_units choice ob) i = Some w -> nth_error (un_functions w) k = Some f ->
    fn_offset f <> u64_max ->
    print_id_item (loaded_units choice ob) (fst (assign_ids (loaded_units choice ob))) (function_number choice ob f) = Some (ItFunction w f).
  Proof.
    intros Ew Et NA. destruct (id_where_found (fun x => match x with
                       | ItFunction _ g => (fn_offset g =? fn_offset f) && (fn_address g =? fn_address f) &&
                                           (fn_size g =? fn_size f) && opt_string_eqb (fn_name g) (fn_name f)
                       | _ => false end) (IdFunction i k) (ItFunction w f))
      as (y & jt & N & L & P); [now constructor|now rewrite !N.eqb_refl, (proj2 (opt_string_eqb_eq _ _) eq_refl)|].
    unfold function_number. rewrite P. f_equal. inversion N as [| |j m v s Ev Es|]; subst; try discriminate L.
    rewrite !andb_true_iff in L. destruct L as (((L & _) & _) & _). apply N.eqb_eq in L.
    assert (i = j).
    { apply (same_holder i j w v (fn_offset f) Ew Ev); try (now right); try (right; left; now apply (nth_in_offset fn_offset _ k)).
      rewrite <- L. right; left. now apply (nth_in_offset fn_offset _ m). }
    subst j. rewrite Ew in Ev. injection Ev as <-. f_equal.
    destruct (holder i w (fn_offset f) Ew) as (u & Eu & LU & _); try (now right); try (right; left; now apply (nth_in_offset fn_offset _ k)).
    destruct (loaded_offsets ob u w LU) as (_ & T & _).
    destruct (C35_kept _ _ _ (unit_distinct ob WF u (nth_error_In _ _ Eu)) (items_read ob u)) as (D & _). rewrite <- T in D.
    apply StronglySorted_lt_NoDup in D.
    apply (NoDup_map_eq fn_offset (un_functions w)); [exact D| | |exact L]; eapply nth_error_In; eauto.
  Qed.

  Lemma variable_numbered i k w f : nth_error (loaded_units choice ob) i = Some w -> nth_error (un_variables w) k = Some f ->
    va_offset f <> u64_max ->
    print_id_item (loaded_units choice ob) (fst (assign_ids (loaded_units choice ob))) (variable_number choice ob f) = Some (ItVariable w f).
  Proof.
    intros Ew Et NA. destruct (id_where_found (fun x => match x with
                       | ItVariable _ g => (va_offset g =? va_offset f) && (va_address g =? va_address f) &&
                                           (va_size g =? va_size f) && opt_string_eqb (va_name g) (va_name f)
                       | _ => false end) (IdVariable i k) (ItVariable w f))
      as (y & jt & N & L & P); [now constructor|now rewrite !N.eqb_refl, (proj2 (opt_string_eqb_eq _ _) eq_refl)|].
    unfold variable_number. rewrite P. f_equal. inversion N as [| | |j m v s Ev Es]; subst; try discriminate L.
    rewrite !andb_true_iff in L. destruct L as (((L & _) & _) & _). apply N.eqb_eq in L.
    assert (i = j).
    { apply (same_holder i j w v (va_offset f) Ew Ev); try (now right); try (right; right; now apply (nth_in_offset va_offset _ k)).
      rewrite <- L. right; right. now apply (nth_in_offset va_offset _ m). }
    subst j. rewrite Ew in Ev. injection Ev as <-. f_equal.
    destruct (holder i w (va_offset f) Ew) as (u & Eu & LU & _); try (now right); try (right; right; now apply (nth_in_offset va_offset _ k)).
    destruct (loaded_offsets ob u w LU) as (_ & _ & T).
    destruct (C36_kept _ _ _ (unit_distinct ob WF u (nth_error_In _ _ Eu)) (items_read ob u)) as (D & _). rewrite <- T in D.
    apply StronglySorted_lt_NoDup in D.
    apply (NoDup_map_eq va_offset (un_variables w)); [exact D| | |exact L]; eapply nth_error_In; eauto.
  Qed.

  Lemma unit_numbered i u w off : nth_error (ob_units ob) i = Some u -> nth_error (loaded_units choice ob) i = Some w ->
    item_offset ob u off ->
    print_id_item (loaded_units choice ob) (fst (assign_ids (loaded_units choice ob))) (unit_number choice ob w) = Some (ItUnit w).
  Proof.
    intros Eu Ew IO. destruct (id_where_found (fun x => match x with ItUnit v => like_unit v w | _ => false end) (IdUnit i) (ItUnit w))
      as (y & jt & N & L & P); [now constructor|apply like_refl|].
    unfold unit_number. rewrite P. f_equal. inversion N as [j v Ev| | |]; subst; try discriminate L.
    f_equal. destruct (loaded_at choice ob i u Eu) as (w' & Ew' & LU). rewrite Ew in Ew'. injection Ew' as <-.
    destruct (loaded_offsets ob u w LU) as (T & F & V).
    assert (NA : off <> u64_max).
    { intros ->. apply (item_entry ob WF u _ (nth_error_In _ _ Eu)) in IO. apply in_map_iff in IO. destruct IO as (d & E & Id).
      destruct WF as [_ X]. rewrite Forall_forall in X. apply (X d); [|exact E]. unfold all_entries. apply in_flat_map.
      exists u. split; [eapply nth_error_In; eauto|exact Id]. }
    assert (HW : holds_item w off) by (unfold holds_item; rewrite T, F, V; exact IO).
    destruct (like_offsets v w L) as (T' & F' & V').
    assert (HV : holds_item v off) by (unfold holds_item; rewrite T', F', V'; exact HW).
    assert (i = j) by (apply (same_holder i j w v off Ew Ev); auto). subst j. congruence.
  Qed.
End Numbers.
