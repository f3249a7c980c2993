(** Every item carries the number that was given to it. *)
From Coq Require Import List Arith NArith Bool String Lia Permutation.
From Verif Require Import Base BaseProofs RangeModel TypeModel FileModel FileSpec SymbolProofs IdModel IdSpec IdProofs PropertiesIds
  PropertiesDie PropertiesMember DescribeProofs DieProofs WholeModel WholeSpec WholeProofs WholeShown WholeSymbols WholeNumbers
  ItemShown ReportModel PropertiesReport DieModel DieSpec RunSpec.
Import ListNotations.
Local Open Scope N_scope.

Lemma nth_same {A B} (key : A -> B) l i j x y : NoDup (map key l) -> nth_error l i = Some x -> nth_error l j = Some y -> key x = key y -> i = j.
Proof.
  intros D X Y E. rewrite NoDup_nth_error in D. apply D.
  - rewrite map_length. apply nth_error_Some. congruence.
  - rewrite !nth_error_map, X, Y. cbn [option_map]. now rewrite E.
Qed.
Lemma NoDup_filter' {A} (p : A -> bool) l : NoDup l -> NoDup (filter p l).
Proof.
  induction 1 as [|x l N D IH]; cbn [filter]; [constructor|]. destruct (p x); [|exact IH]. constructor; [|exact IH].
  intros I. apply filter_In in I. now destruct I.
Qed.
Lemma NoDup_map_on {A B} (f : A -> B) l : (forall x y, In x l -> In y l -> f x = f y -> x = y) -> NoDup l -> NoDup (map f l).
Proof.
  induction l as [|a l IH]; intros H D; cbn [map]; [constructor|]. inversion D as [|? ? N D']; subst. constructor.
  - intros I. apply in_map_iff in I. destruct I as (b & E & Ib). apply H in E; [congruence|now right|now left].
  - apply IH; [|exact D']. intros x y X Y. apply H; now right.
Qed.

Section Numbers.
  Variable choice : N -> nat.
  Variable ob : object_input.
  Hypothesis WF : well_formed ob.
  Hypothesis TA : told_apart ob.
  Let symbols := parse_symbols (ob_symbols ob).
  Notation units := (loaded_units choice ob).

  Lemma ends : exists us st unk unclaimed,
    units = (us ++ [st; unk])%list /\ Forall2 (loaded_unit symbols) (parsed_units ob) us /\
    only_absent st /\ only_absent unk /\ un_name st = Some "<symtab>"%string /\ un_name unk = Some "<unknown>"%string /\
    NoDup unclaimed /\ un_functions unk = [] /\ un_variables unk = [] /\
    un_functions st = map symbol_function (filter is_function_symbol unclaimed) /\
    un_variables st = map symbol_variable (filter (fun s => negb (is_function_symbol s)) unclaimed).
  Proof.
    destruct (loaded_last choice ob) as (us & st & unk & E & F & A & B).
    exists us, st, unk. pose proof E as E2. unfold loaded_units, loaded in E2. rewrite normalize_eq in E2. cbn [fl_units file_read fl_symbols] in E2.
    set (l := sort_symbols symbols) in *. set (addrs := flat_map un_addrs (parsed_units ob)) in *.
    change [st; unk] with ([st] ++ [unk])%list in E2. rewrite app_assoc in E2. apply app_inj_tail in E2. destruct E2 as (E2 & <-).
    apply app_inj_tail in E2. destruct E2 as (_ & E2).
    exists (filter (unused addrs) l). split; [exact E|]. split; [exact F|]. split; [exact A|]. split; [exact B|].
    rewrite <- E2. rewrite symtab_unit_spec. repeat split. apply NoDup_filter'.
    unfold l. eapply Permutation_NoDup; [symmetry; apply sort_symbols_perm|]. apply (ta_symbols ob TA).
  Qed.

  Lemma id_where_unique like x it : names units x it -> like it = true ->
    (forall y jt, names units y jt -> like jt = true -> y = x) ->
    forall ids log, assign_ids units = (ids, log) -> id_where choice ob like = id_of log x.
  Proof.
    intros N L U ids log E. unfold id_where. rewrite E. destruct (assigned _ _ _ E) as (EI & _).
    destruct (find _ ids) as [y|] eqn:FD.
    - apply find_some in FD. destruct FD as (Iy & Ly). destruct (item_at units y) as [jt|] eqn:EJ; [|discriminate].
      apply names_iff in EJ. now rewrite (U y jt EJ Ly).
    - exfalso. pose proof (find_none _ _ FD x) as X. pose proof N as N'. apply names_iff in N'. cbn in X. rewrite N', L in X.
      discriminate X. rewrite EI. apply all_ids_in. congruence.
  Qed.

  Lemma at_end us st unk i w : units = (us ++ [st; unk])%list -> nth_error units i = Some w ->
    (i < List.length us)%nat \/ i = List.length us /\ w = st \/ i = S (List.length us) /\ w = unk.
  Proof.
    intros E H. rewrite E in H. destruct (Nat.lt_ge_cases i (List.length us)) as [L|L]; [now left|right].
    rewrite nth_error_app2 in H by exact L. destruct (i - List.length us)%nat as [|[|k]] eqn:K; cbn in H.
    - left. injection H as <-. split; [lia|reflexivity].
    - right. injection H as <-. split; [lia|reflexivity].
    - destruct k; discriminate.
  Qed.
  Lemma not_at_end us i : Forall2 (loaded_unit symbols) (parsed_units ob) us -> (i < List.length us)%nat ->
    exists u, nth_error (ob_units ob) i = Some u.
  Proof.
    intros F L. assert (X := Forall2_length_eq _ _ _ F). unfold parsed_units in X. rewrite map_length in X.
    destruct (nth_error (ob_units ob) i) as [u|] eqn:Eu; [eauto|]. apply nth_error_None in Eu. lia.
  Qed.
  (** Items without an entry are those made from symbols. *)
  Lemma entry_reserved us i w off : Forall2 (loaded_unit symbols) (parsed_units ob) us -> (i < List.length us)%nat ->
    nth_error units i = Some w -> holds_item w off -> off <> u64_max.
  Proof.
    intros F L Ew H ->. destruct (not_at_end us i F L) as (u & Eu).
    destruct (loaded_at choice ob i u Eu) as (w' & Ew' & LU). rewrite Ew in Ew'. injection Ew' as <-.
    destruct (loaded_offsets ob u w LU) as (T & Fn & V). apply (reserved_item ob WF u (nth_error_In _ _ Eu)).
    unfold item_offset. rewrite <- T, <- Fn, <- V. exact H.
  Qed.

  Lemma carried_type i k w t ids log : nth_error units i = Some w -> nth_error (un_types w) k = Some t ->
    assign_ids units = (ids, log) -> type_number choice ob t = id_of log (IdType i k).
  Proof.
    intros Ew Et A. refine (id_where_unique _ (IdType i k) (ItType w t) _ _ _ ids log A); [now constructor|apply N.eqb_refl|].
    intros y jt N L. inversion N as [|j m v s Ev Es| |]; subst; try discriminate L. apply N.eqb_eq in L.
    assert (i = j).
    { apply (same_holder choice ob WF i j w v (t_offset t) Ew Ev); try left; try rewrite <- L; try (now apply (nth_in_offset t_offset _ m));
        rewrite ?L; now apply (nth_in_offset t_offset _ k). }
    subst j. rewrite Ew in Ev. injection Ev as <-. f_equal.
    destruct (holder choice ob i w (t_offset t) Ew) as (u & Eu & LU & _); try left; try now apply (nth_in_offset t_offset _ k).
    destruct LU as (_ & _ & T & _). cbn [unit_of un_types] in T.
    destruct (C49_kept _ _ _ (unit_distinct ob WF u (nth_error_In _ _ Eu)) (items_read ob u)) as (D & _). rewrite <- T in D.
    exact (nth_same t_offset _ m k s t D Es Et L).
  Qed.

  Lemma carried_function i k w f ids log : nth_error units i = Some w -> nth_error (un_functions w) k = Some f ->
    assign_ids units = (ids, log) -> function_number choice ob f = id_of log (IdFunction i k).
  Proof.
    intros Ew Et A. refine (id_where_unique _ (IdFunction i k) (ItFunction w f) _ _ _ ids log A);
      [now constructor|now rewrite !N.eqb_refl, (proj2 (opt_string_eqb_eq _ _) eq_refl)|].
    intros y jt N L. inversion N as [| |j m v s Ev Es|]; subst; try discriminate L.
    rewrite !andb_true_iff, !N.eqb_eq, opt_string_eqb_eq in L. destruct L as (((L & LA) & LS) & LN).
    destruct (N.eq_dec (fn_offset f) u64_max) as [NA|NA].
    - destruct ends as (us & st & unk & un & EU & F & _ & _ & _ & _ & D & NF & _ & SF & _).
      assert (Iw : holds_item w u64_max) by (rewrite <- NA; right; left; now apply (nth_in_offset fn_offset _ k)).
      assert (Iv : holds_item v u64_max) by (rewrite <- NA, <- L; right; left; now apply (nth_in_offset fn_offset _ m)).
      destruct (at_end us st unk i w EU Ew) as [X|[(-> & ->)|(_ & ->)]]; [exfalso; now apply (entry_reserved us i w u64_max F X Ew Iw)| |
        rewrite NF in Et; destruct k; discriminate].
      destruct (at_end us st unk j v EU Ev) as [X|[(-> & ->)|(_ & ->)]]; [exfalso; now apply (entry_reserved us j v u64_max F X Ev Iv)| |
        rewrite NF in Es; destruct m; discriminate].
      f_equal. rewrite SF, nth_error_map in Et, Es.
      destruct (nth_error (filter is_function_symbol un) k) as [a|] eqn:Ea; [|discriminate].
      destruct (nth_error (filter is_function_symbol un) m) as [b|] eqn:Eb; [|discriminate].
      cbn [option_map] in Et, Es. apply some_eq in Et, Es. subst f s. cbn [symbol_function fn_address fn_size fn_name] in LA, LS, LN.
      apply (nth_same (fun x => x) (filter is_function_symbol un) m k b a); [rewrite map_id; now apply NoDup_filter'|exact Eb|exact Ea|].
      apply nth_error_In, filter_In in Ea, Eb. destruct Ea as (_ & Ea), Eb as (_ & Eb). destruct a as [a1 a2 a3 a4], b as [b1 b2 b3 b4].
      unfold is_function_symbol in Ea, Eb. cbn in *. destruct a2; try discriminate. destruct b2; try discriminate. congruence.
    - assert (i = j).
      { apply (same_holder choice ob WF i j w v (fn_offset f) Ew Ev); try (now right); try (right; left; now apply (nth_in_offset fn_offset _ k)).
        rewrite <- L. right; left. now apply (nth_in_offset fn_offset _ m). }
      subst j. rewrite Ew in Ev. injection Ev as <-. f_equal.
      destruct (holder choice ob i w (fn_offset f) Ew) as (u & Eu & LU & _); try (now right); try (right; left; now apply (nth_in_offset fn_offset _ k)).
      destruct (loaded_offsets ob u w LU) as (_ & T & _).
      destruct (C35_kept _ _ _ (unit_distinct ob WF u (nth_error_In _ _ Eu)) (items_read ob u)) as (D & _). rewrite <- T in D.
      apply StronglySorted_lt_NoDup in D. exact (nth_same fn_offset _ m k s f D Es Et L).
  Qed.

  Lemma carried_variable i k w f ids log : nth_error units i = Some w -> nth_error (un_variables w) k = Some f ->
    assign_ids units = (ids, log) -> variable_number choice ob f = id_of log (IdVariable i k).
  Proof.
    intros Ew Et A. refine (id_where_unique _ (IdVariable i k) (ItVariable w f) _ _ _ ids log A);
      [now constructor|now rewrite !N.eqb_refl, (proj2 (opt_string_eqb_eq _ _) eq_refl)|].
    intros y jt N L. inversion N as [| | |j m v s Ev Es]; subst; try discriminate L.
    rewrite !andb_true_iff, !N.eqb_eq, opt_string_eqb_eq in L. destruct L as (((L & LA) & LS) & LN).
    destruct (N.eq_dec (va_offset f) u64_max) as [NA|NA].
    - destruct ends as (us & st & unk & un & EU & F & _ & _ & _ & _ & D & _ & NF & _ & SF).
      assert (Iw : holds_item w u64_max) by (rewrite <- NA; right; right; now apply (nth_in_offset va_offset _ k)).
      assert (Iv : holds_item v u64_max) by (rewrite <- NA, <- L; right; right; now apply (nth_in_offset va_offset _ m)).
      destruct (at_end us st unk i w EU Ew) as [X|[(-> & ->)|(_ & ->)]]; [exfalso; now apply (entry_reserved us i w u64_max F X Ew Iw)| |
        rewrite NF in Et; destruct k; discriminate].
      destruct (at_end us st unk j v EU Ev) as [X|[(-> & ->)|(_ & ->)]]; [exfalso; now apply (entry_reserved us j v u64_max F X Ev Iv)| |
        rewrite NF in Es; destruct m; discriminate].
      f_equal. rewrite SF, nth_error_map in Et, Es.
      destruct (nth_error (filter (fun s => negb (is_function_symbol s)) un) k) as [a|] eqn:Ea; [|discriminate].
      destruct (nth_error (filter (fun s => negb (is_function_symbol s)) un) m) as [b|] eqn:Eb; [|discriminate].
      cbn [option_map] in Et, Es. apply some_eq in Et, Es. subst f s. cbn [symbol_variable va_address va_size va_name] in LA, LS, LN.
      apply (nth_same (fun x => x) (filter (fun s => negb (is_function_symbol s)) un) m k b a); [rewrite map_id; now apply NoDup_filter'|exact Eb|exact Ea|].
      apply nth_error_In, filter_In in Ea, Eb. destruct Ea as (_ & Ea), Eb as (_ & Eb). destruct a as [a1 a2 a3 a4], b as [b1 b2 b3 b4].
      unfold is_function_symbol in Ea, Eb. cbn in *. destruct a2; try discriminate; destruct b2; try discriminate; congruence.
    - assert (i = j).
      { apply (same_holder choice ob WF i j w v (va_offset f) Ew Ev); try (now right); try (right; right; now apply (nth_in_offset va_offset _ k)).
        rewrite <- L. right; right. now apply (nth_in_offset va_offset _ m). }
      subst j. rewrite Ew in Ev. injection Ev as <-. f_equal.
      destruct (holder choice ob i w (va_offset f) Ew) as (u & Eu & LU & _); try (now right); try (right; right; now apply (nth_in_offset va_offset _ k)).
      destruct (loaded_offsets ob u w LU) as (_ & _ & T).
      destruct (C36_kept _ _ _ (unit_distinct ob WF u (nth_error_In _ _ Eu)) (items_read ob u)) as (D & _). rewrite <- T in D.
      apply StronglySorted_lt_NoDup in D. exact (nth_same va_offset _ m k s f D Es Et L).
  Qed.

  Lemma unit_item u : has_items ob u -> exists off, item_offset ob u off.
  Proof.
    unfold has_items, item_offset. intros [H|[H|H]].
    - destruct (ws_types (unit_items ob u)) as [|x l]; [congruence|]. exists (t_offset x). left. now left.
    - destruct (ws_functions (unit_items ob u)) as [|x l]; [congruence|]. exists (fu_offset x). right. left. now left.
    - destruct (ws_variables (unit_items ob u)) as [|x l]; [congruence|]. exists (vr_offset x). right. right. now left.
  Qed.
  (** A unit with an item is not like another one. *)
  Lemma like_unit_one i j u w v : nth_error (ob_units ob) i = Some u -> has_items ob u ->
    nth_error units i = Some w -> nth_error units j = Some v ->
    map t_offset (un_types v) = map t_offset (un_types w) /\ map fn_offset (un_functions v) = map fn_offset (un_functions w) /\
    map va_offset (un_variables v) = map va_offset (un_variables w) -> j = i.
  Proof.
    intros Eu H Ew Ev (T' & F' & V'). destruct (unit_item u H) as (off & IO).
    destruct (loaded_at choice ob i u Eu) as (w' & Ew' & LU). rewrite Ew in Ew'. injection Ew' as <-.
    destruct (loaded_offsets ob u w LU) as (T & F & V).
    assert (NA : off <> u64_max) by (intros ->; exact (reserved_item ob WF u (nth_error_In _ _ Eu) IO)).
    assert (HW : holds_item w off) by (unfold holds_item; rewrite T, F, V; exact IO).
    assert (HV : holds_item v off) by (unfold holds_item; rewrite T', F', V'; exact HW).
    symmetry. apply (same_holder choice ob WF i j w v off Ew Ev); auto.
  Qed.
  Lemma unit_called i u w : nth_error (ob_units ob) i = Some u -> nth_error units i = Some w -> un_name w = given_name (ui_attrs u).
  Proof.
    intros Eu Ew. destruct (loaded_at choice ob i u Eu) as (w' & Ew' & LU). rewrite Ew in Ew'. injection Ew' as <-.
    destruct LU as (-> & _). cbn [unit_of un_name]. apply attr_name_given.
  Qed.

  Lemma carried_unit i w ids log : nth_error units i = Some w -> assign_ids units = (ids, log) ->
    unit_number choice ob w = id_of log (IdUnit i).
  Proof.
    intros Ew A. refine (id_where_unique _ (IdUnit i) (ItUnit w) _ _ _ ids log A); [now constructor|apply like_refl|].
    intros y jt N L. inversion N as [j v Ev| | |]; subst; try discriminate L. f_equal.
    pose proof (like_offsets v w L) as O.
    assert (NM : un_name v = un_name w).
    { unfold like_unit in L. rewrite !andb_true_iff in L. destruct L as ((((L & _) & _) & _) & _). now apply opt_string_eqb_eq. }
    destruct ends as (us & st & unk & un & EU & F & _ & _ & N1 & N2 & _).
    assert (O' : map t_offset (un_types w) = map t_offset (un_types v) /\ map fn_offset (un_functions w) = map fn_offset (un_functions v) /\
      map va_offset (un_variables w) = map va_offset (un_variables v)) by (destruct O as (-> & -> & ->); auto).
    assert (END : forall a b x y, nth_error units a = Some x -> nth_error units b = Some y -> un_name x = un_name y ->
      map t_offset (un_types y) = map t_offset (un_types x) /\ map fn_offset (un_functions y) = map fn_offset (un_functions x) /\
      map va_offset (un_variables y) = map va_offset (un_variables x) ->
      (a < List.length us)%nat -> (y = st \/ y = unk) -> b = a).
    { intros a b x y Ex Ey NE OO LT C. destruct (not_at_end us a F LT) as (u & Eu).
      destruct (ta_added ob TA u (nth_error_In _ _ Eu)) as [H|(H1 & H2)]; [exact (like_unit_one a b u x y Eu H Ex Ey OO)|].
      exfalso. rewrite <- (unit_called a u x Eu Ex) in H1, H2. destruct C as [->| ->]; congruence. }
    destruct (at_end us st unk i w EU Ew) as [X|X], (at_end us st unk j v EU Ev) as [Y|Y].
    - destruct (Nat.eq_dec i j) as [Q|Q]; [now symmetry|]. destruct (not_at_end us i F X) as (u & Eu). destruct (not_at_end us j F Y) as (x & Ex).
      destruct (ta_units ob TA i j u x Eu Ex Q) as [H|[H|H]].
      + exact (like_unit_one i j u w v Eu H Ew Ev O).
      + symmetry. exact (like_unit_one j i x v w Ex H Ev Ew O').
      + exfalso. rewrite <- (unit_called i u w Eu Ew), <- (unit_called j x v Ex Ev) in H. congruence.
    - apply (END i j w v Ew Ev (eq_sym NM) O X). destruct Y as [(_ & ->)|(_ & ->)]; auto.
    - symmetry. apply (END j i v w Ev Ew NM O' Y). destruct X as [(_ & ->)|(_ & ->)]; auto.
    - destruct X as [(-> & ->)|(-> & ->)], Y as [(-> & ->)|(-> & ->)]; congruence || discriminate || reflexivity.
  Qed.

  Theorem carried x it ids log : assign_ids units = (ids, log) -> names units x it -> carried_id (load choice ob) it = id_of log x.
  Proof.
    intros A N. destruct N as [i u E|i k u t E F|i k u f E F|i k u v E F]; cbn [carried_id].
    - exact (carried_unit i u ids log E A).
    - exact (carried_type i k u t ids log E F A).
    - exact (carried_function i k u f ids log E F A).
    - exact (carried_variable i k u v ids log E F A).
  Qed.
End Numbers.
