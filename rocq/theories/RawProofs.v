(** Proofs about what is read from the values of attributes. *)
From Coq Require Import List Arith NArith ZArith Bool String Ascii Lia.
From Verif Require Import Base BaseProofs RangeModel NamespaceModel TypeModel LocationModel ReadModel ReadSpec ReadProofs ItemModel
  EntryModel DieModel DieSpec DieProofs WholeModel WholeSpec WholeProofs RawModel RawSpec.
Import ListNotations.
Local Open Scope N_scope.

(** ** Tables and strings *)

Lemma entry_of_iff {A} (table : list A) i x : entry_of table i = Some x <-> numbered 0 i table x.
Proof.
  unfold entry_of, numbered. split.
  - intros E. apply nth_error_split in E. destruct E as (b & a & -> & L). exists b, a. split; [reflexivity|lia].
  - intros (b & a & -> & ->). rewrite N.add_0_l, Nat2N.id, nth_error_app2, Nat.sub_diag; [reflexivity|lia].
Qed.

Lemma bytes_string_text bytes : bytes_string bytes = text_of bytes.
Proof. unfold text_of, bytes_string. induction bytes as [|b l IH]; [reflexivity|]. cbn [fold_right map string_of_list_ascii]. now rewrite IH. Qed.

Lemma c_string_app bytes after : ~ In 0 bytes -> c_string (bytes ++ 0 :: after) = Some (text_of bytes).
Proof.
  unfold text_of. induction bytes as [|b l IH]; intros NI; [reflexivity|]. cbn [app c_string map string_of_list_ascii].
  destruct (N.eqb_spec b 0) as [->|]; [destruct NI; now left|]. rewrite IH by (intros X; apply NI; now right). reflexivity.
Qed.
Lemma c_string_iff l : forall s, c_string l = Some s <-> exists bytes after, l = bytes ++ 0 :: after /\ ~ In 0 bytes /\ s = text_of bytes.
Proof.
  intros s. split.
  - revert s. induction l as [|b l IH]; intros s; cbn [c_string]; [discriminate|]. destruct (N.eqb_spec b 0) as [->|NE].
    + intros [= <-]. exists [], l. repeat split. intros [].
    + destruct (c_string l) as [t|]; [|discriminate]. cbn [option_map]. intros [= <-].
      destruct (IH t eq_refl) as (bytes & after & -> & NI & ->). exists (b :: bytes), after. split; [reflexivity|].
      split; [|reflexivity]. intros [X|X]; [congruence|auto].
  - intros (bytes & after & -> & NI & ->). now apply c_string_app.
Qed.

Lemma string_at_iff section o s : string_at section o = Some s <-> exists bytes, starts_at section o bytes /\ s = text_of bytes.
Proof.
  unfold string_at, starts_at. rewrite c_string_iff. split.
  - intros (bytes & after & E & NI & ->). exists bytes. split; [|reflexivity].
    exists (firstn (N.to_nat o) section), after. split; [|split; [|exact NI]].
    + rewrite <- E. symmetry. apply firstn_skipn.
    + rewrite firstn_length_le; [lia|]. destruct (Nat.le_gt_cases (N.to_nat o) (List.length section)) as [L|L]; [exact L|].
      rewrite skipn_all2 in E by lia. destruct bytes; discriminate.
  - intros (bytes & (before & after & -> & L & NI) & ->). exists bytes, after. split; [|split; [exact NI|reflexivity]].
    rewrite <- L, Nat2N.id, skipn_app, Nat.sub_diag, skipn_all. reflexivity.
Qed.

Section Unit.
  Variable rf : raw_file.
  Variable u : raw_unit.

  Lemma attr_string_iff v s : attr_string rf u v = Some s <-> says rf u v s.
  Proof.
    destruct v; cbn [attr_string]; try (split; [discriminate|intros H; inversion H]).
    - rewrite bytes_string_text. split; [intros [= <-]; constructor|intros H; inversion H; reflexivity].
    - rewrite string_at_iff. split; [intros (b & S & ->); now constructor|intros H; inversion H; eauto].
    - rewrite string_at_iff. split; [intros (b & S & ->); now constructor|intros H; inversion H; eauto].
    - destruct (entry_of (ru_string_offsets u) i) as [o|] eqn:E.
      + pose proof E as E'. apply entry_of_iff in E'. destruct E' as (b & a & T & L). rewrite string_at_iff. split.
        * intros (bs & S & ->). rewrite N.add_0_l in L. rewrite L. econstructor; eauto.
        * intros H. inversion H as [| | |b' o' a' bs T' S EL]; subst. exists bs. split; [|reflexivity].
          assert (E2 : entry_of (ru_string_offsets u) (N.of_nat (List.length b')) = Some o') by (apply entry_of_iff; exists b', a'; split; [exact T'|lia]).
          congruence.
      + split; [discriminate|]. intros H. inversion H as [| | |b' o' a' bs T' S EL]; subst.
        assert (E2 : entry_of (ru_string_offsets u) (N.of_nat (List.length b')) = Some o') by (apply entry_of_iff; exists b', a'; split; [exact T'|lia]).
        congruence.
  Qed.
  Lemma attr_string_none v : attr_string rf u v = None <-> forall s, ~ says rf u v s.
  Proof.
    split.
    - intros E s H. apply attr_string_iff in H. congruence.
    - intros H. destruct (attr_string rf u v) as [s|] eqn:E; [|reflexivity]. apply attr_string_iff in E. destruct (H s E).
  Qed.

  Lemma attr_address_iff v a : attr_address u v = Some a <-> addresses u v a.
  Proof.
    destruct v; cbn [attr_address]; try (split; [discriminate|intros H; inversion H]).
    - split; [intros [= <-]; constructor|intros H; inversion H; reflexivity].
    - rewrite entry_of_iff. split.
      + intros (b & c & T & ->). rewrite N.add_0_l. econstructor; eauto.
      + intros H. inversion H as [|b x c T]; subst. exists b, c. split; [exact T|lia].
  Qed.

  Lemma numbered_shift {A} first n (table : list A) x : first <= n -> (numbered first n table x <-> numbered 0 (n - first) table x).
  Proof.
    intros L. unfold numbered. split; intros (b & a & T & E); exists b, a; (split; [exact T|lia]).
  Qed.
  Lemma line_file_iff l n p d : n <> 0 -> (line_file l n = Some (p, d) <-> file_numbered l n p d).
  Proof.
    intros NZ. unfold line_file, file_numbered.
    destruct (N.leb_spec (rl_version l) 4), (N.ltb_spec (rl_version l) 5); try lia; [|apply entry_of_iff].
    destruct (N.eqb_spec n 0); [contradiction|]. rewrite entry_of_iff. symmetry. apply numbered_shift. lia.
  Qed.
  Lemma line_directory_iff l n d : line_directory l n = Some d <-> directory_numbered l n d.
  Proof.
    unfold line_directory, directory_numbered.
    destruct (N.leb_spec (rl_version l) 4), (N.ltb_spec (rl_version l) 5); try lia.
    - destruct (N.eqb_spec n 0) as [->|NZ].
      + split; [intros E; right; repeat split; assumption|]. intros [(b & a & _ & E)|(_ & _ & E)]; [lia|exact E].
      + rewrite entry_of_iff, <- (numbered_shift 1) by lia. split; [now left|]. intros [H1|(_ & E & _)]; [exact H1|contradiction].
    - rewrite entry_of_iff. split; [now left|]. intros [H1|(L & _)]; [exact H1|lia].
  Qed.

  (** ** Attributes *)

  Lemma find_at (table : list (N * (raw_value -> attr))) c : NoDup (map fst table) ->
    forall f, In (c, f) table -> find (fun p => fst p =? c) table = Some (c, f).
  Proof.
    induction table as [|(d, g) t IH]; intros D f I; [destruct I|]. cbn [map fst] in D. inversion D as [|? ? NI D']; subst.
    cbn [find fst]. destruct I as [[= -> ->]|I]; [now rewrite N.eqb_refl|].
    destruct (N.eqb_spec d c) as [->|]; [|now apply IH]. destruct NI. apply (in_map fst) in I. exact I.
  Qed.
  Lemma table_nodup : NoDup (map fst (attribute_table rf u)).
  Proof. cbn. repeat (constructor; [cbn; intuition discriminate|]). constructor. Qed.
  Lemma read_attr_at c f v : In (c, f) (attribute_table rf u) -> read_attr rf u (c, v) = f v.
  Proof. intros I. unfold read_attr. cbn [fst snd]. now rewrite (find_at _ c table_nodup f I). Qed.
  (** What no other attribute gives. *)
  Lemma read_attr_other {A} (pick : attr -> option A) (codes : list N) a :
    Forall (fun p => In (fst p) codes \/ forall v, pick (snd p v) = None) (attribute_table rf u) ->
    (forall n, pick (AOther n) = None) -> ~ In (fst a) codes -> pick (read_attr rf u a) = None.
  Proof.
    intros F O N. unfold read_attr. destruct (find _ _) as [(c, f)|] eqn:E; [|apply O].
    apply find_some in E. destruct E as (I & E). cbn [fst] in E. apply N.eqb_eq in E. subst c.
    rewrite Forall_forall in F. destruct (F _ I) as [X|X]; [contradiction|apply X].
  Qed.
End Unit.

Lemma given_app {A} (pick : attr -> option A) l m x : given pick (l ++ m) x = given pick m (given pick l x).
Proof.
  revert x. induction l as [|a l IH]; intros x; [reflexivity|]. cbn [app]. now rewrite !given_cons, IH.
Qed.
Lemma given_skip {A} (pick : attr -> option A) l x : (forall a, In a l -> pick a = None) -> given pick l x = x.
Proof.
  revert x. induction l as [|a l IH]; intros x H; [reflexivity|]. rewrite given_cons, (H a) by now left.
  apply IH. intros b I. apply H. now right.
Qed.
Lemma given_last {A} (pick : attr -> option A) rf u (P : N * raw_value -> Prop) attrs a x y :
  last_such P attrs a -> pick (read_attr rf u a) = Some x -> (forall b, ~ P b -> pick (read_attr rf u b) = None) ->
  given pick (map (read_attr rf u) attrs) y = x.
Proof.
  intros (before & after & -> & Pa & NP) E O. rewrite map_app, given_app. cbn [map].
  rewrite given_cons, E. apply given_skip. intros b I. apply in_map_iff in I. destruct I as (c & <- & I). apply O, NP, I.
Qed.
Lemma given_none {A} (pick : attr -> option A) rf u (P : N * raw_value -> Prop) attrs y :
  no_such P attrs -> (forall b, ~ P b -> pick (read_attr rf u b) = None) ->
  given pick (map (read_attr rf u) attrs) y = y.
Proof.
  intros N O. apply given_skip. intros b I. apply in_map_iff in I. destruct I as (c & <- & I). apply O, N, I.
Qed.

(** The last of some attributes exists if there is one. *)
Lemma last_such_dec (P : N * raw_value -> Prop) (D : forall a, P a \/ ~ P a) attrs : (exists a, last_such P attrs a) \/ no_such P attrs.
Proof.
  induction attrs as [|a l IH]; [right; intros a []|]. destruct IH as [(b & before & after & -> & Pb & N)|N].
  - left. exists b, (a :: before), after. auto.
  - destruct (D a) as [Pa|NPa].
    + left. exists a, [], l. auto.
    + right. intros b [<-|I]; auto.
Qed.

(** Loops that take the last value of an attribute. *)
Lemma fold_last {A} (f : A -> N * raw_value -> A) (P : N * raw_value -> Prop) attrs a x y :
  last_such P attrs a -> (forall z, f z a = x) -> (forall z b, ~ P b -> f z b = z) -> fold_left f attrs y = x.
Proof.
  intros (before & after & -> & Pa & NP) E O. rewrite fold_left_app. cbn [fold_left]. rewrite E.
  assert (H : forall l z, (forall b, In b l -> ~ P b) -> fold_left f l z = z).
  { induction l as [|b l IH]; intros z H; [reflexivity|]. cbn [fold_left]. rewrite O by (apply H; now left). apply IH. intros c I. apply H. now right. }
  now apply H.
Qed.
Lemma fold_none {A} (f : A -> N * raw_value -> A) (P : N * raw_value -> Prop) attrs y :
  no_such P attrs -> (forall z b, ~ P b -> f z b = z) -> fold_left f attrs y = y.
Proof.
  intros H O. revert y. induction attrs as [|b l IH]; intros y; [reflexivity|]. cbn [fold_left].
  rewrite O by (apply H; now left). apply IH. intros c I. apply H. now right.
Qed.

(** ** Entries *)

Section Raw_ind.
  Variable P : raw_die -> Prop.
  Hypothesis H : forall t o a l, (forall c, In c l -> P c) -> P (RawDie t o a l).
  Fixpoint raw_die_ind' (d : raw_die) : P d :=
    match d with
    | RawDie t o a l =>
        H t o a l
          ((fix all (l : list raw_die) : forall c, In c l -> P c :=
              match l with
              | [] => fun c I => match I with end
              | x :: l' => fun c I =>
                  match I with or_introl E => eq_ind x P (raw_die_ind' x) c E | or_intror I' => all l' c I' end
              end) l)
    end.
End Raw_ind.

Lemma read_entries rf u d : entries (read_die rf u d) = map (read_die rf u) (raw_entries d).
Proof.
  induction d as [t o a l IH] using raw_die_ind'.
  change (raw_entries (RawDie t o a l)) with (RawDie t o a l :: flat_map raw_entries l).
  transitivity (read_die rf u (RawDie t o a l) :: flat_map entries (map (read_die rf u) l)); [reflexivity|]. cbn [map]. f_equal.
  induction l as [|c l IHl]; [reflexivity|]. cbn [map flat_map]. rewrite map_app, IH by now left. f_equal.
  apply IHl. intros x I. apply IH. now right.
Qed.
Lemma read_offset rf u d : die_offset (read_die rf u d) = ud_begin (ru_place u) + rd_offset d.
Proof. now destruct d. Qed.
Lemma read_attrs rf u d : die_attrs (read_die rf u d) = map (read_attr rf u) (rd_attrs d).
Proof. now destruct d. Qed.
Lemma read_tag_of rf u d : die_tag (read_die rf u d) = read_tag (rd_tag d).
Proof. now destruct d. Qed.
Lemma read_children rf u d : die_children (read_die rf u d) = map (read_die rf u) (rd_children d).
Proof. now destruct d. Qed.

Lemma read_below rf u : unit_entries (read_unit rf u) = map (read_die rf u) (raw_below u).
Proof.
  unfold unit_entries, raw_below. cbn [read_unit ui_children]. induction (rd_children (ru_root u)) as [|d l IH]; [reflexivity|].
  cbn [map flat_map]. now rewrite map_app, read_entries, IH.
Qed.
Lemma entries_root d : raw_entries d = d :: flat_map raw_entries (rd_children d).
Proof. now destruct d. Qed.

Lemma raw_find_eq o t o' a l : raw_find o (RawDie t o' a l) =
  if o' =? o then Some (RawDie t o' a l)
  else (fix first (l : list raw_die) : option raw_die :=
         match l with
         | [] => None
         | c :: l' => match raw_find o c with Some x => Some x | None => first l' end
         end) l.
Proof. reflexivity. Qed.
Lemma raw_find_sound o d : forall x, raw_find o d = Some x -> In x (raw_entries d) /\ rd_offset x = o.
Proof.
  induction d as [t o' a l IH] using raw_die_ind'. intros x. rewrite raw_find_eq. destruct (N.eqb_spec o' o) as [->|N].
  - intros [= <-]. split; [now left|reflexivity].
  - intros E. cbn [raw_entries]. enough (In x (flat_map raw_entries l) /\ rd_offset x = o) by intuition.
    induction l as [|c l IHl]; [discriminate|]. cbn [flat_map]. rewrite in_app_iff. destruct (raw_find o c) as [y|] eqn:F.
    + injection E as ->. apply (IH c (or_introl eq_refl)) in F. tauto.
    + destruct IHl as (A & B); [intros y I; apply IH; now right|exact E|]. tauto.
Qed.
Lemma raw_find_complete o d : (exists x, In x (raw_entries d) /\ rd_offset x = o) -> exists x, raw_find o d = Some x.
Proof.
  induction d as [t o' a l IH] using raw_die_ind'. intros (x & I & E). rewrite raw_find_eq. destruct (N.eqb_spec o' o) as [->|N]; [eauto|].
  destruct I as [<-|I]; [cbn in E; contradiction|].
  induction l as [|c l IHl]; [destruct I|]. cbn [flat_map] in I. apply in_app_iff in I. destruct (raw_find o c) as [y|] eqn:F; [eauto|].
  destruct I as [I|I].
  - destruct (IH c (or_introl eq_refl)) as (y & F'); [eauto|congruence].
  - apply IHl; [intros z J; apply IH; now right|exact I].
Qed.

Section File.
  Variable rf : raw_file.
  Hypothesis WF : raw_well_formed rf.

  Lemma unit_place_in u d : In u (rf_units rf) -> In d (raw_entries (ru_root u)) ->
    inside_unit (ud_begin (ru_place u) + rd_offset d) (ru_place u) /\ ud_begin (ru_place u) + rd_offset d <> u64_max.
  Proof.
    intros I J. destruct WF as (_ & W). destruct (W u I) as (E & _ & F). specialize (F d J). split; [exact F|]. unfold inside_unit in F. lia.
  Qed.

  (** A place is in one unit only. *)
  Lemma place_once i j u v o : nth_error (rf_units rf) i = Some u -> nth_error (rf_units rf) j = Some v ->
    inside_unit o (ru_place u) -> inside_unit o (ru_place v) -> i = j.
  Proof.
    destruct WF as ((FO & FB) & _). intros Ei Ej Hu Hv.
    assert (G : forall us i j u v, ForallOrdPairs (fun u v => ud_end u <= ud_begin v) (map ru_place us) -> (i < j)%nat ->
              nth_error us i = Some u -> nth_error us j = Some v -> ud_end (ru_place u) <= ud_begin (ru_place v)).
    { clear. induction us as [|x us IH]; intros i j u v F L Ei Ej; [destruct i; discriminate|].
      cbn [map] in F. inversion F as [|? ? A B]; subst. destruct j as [|j]; [lia|]. destruct i as [|i]; cbn in Ei, Ej.
      - injection Ei as ->. rewrite Forall_forall in A. apply A. apply in_map. now apply nth_error_In in Ej.
      - apply (IH i j); auto. lia. }
    unfold inside_unit in *. destruct (Nat.lt_trichotomy i j) as [L|[->|L]]; [|reflexivity|].
    - specialize (G _ i j u v FO L Ei Ej). lia.
    - specialize (G _ j i v u FO L Ej Ei). lia.
  Qed.

  Lemma entry_once u d e : In u (rf_units rf) -> In d (raw_entries (ru_root u)) -> In e (raw_entries (ru_root u)) ->
    rd_offset d = rd_offset e -> d = e.
  Proof. intros I. destruct WF as (_ & W). destruct (W u I) as (_ & D & _). now apply NoDup_map_eq. Qed.

  Lemma tree_found us : (forall u, In u us -> In u (rf_units rf)) ->
    ForallOrdPairs (fun u v => ud_end u <= ud_begin v) (map ru_place us) ->
    forall u d, In u us -> In d (raw_entries (ru_root u)) -> tree_in us (ud_begin (ru_place u) + rd_offset d) = Some (u, d).
  Proof.
    induction us as [|x us IH]; intros S F u d I J; [destruct I|]. cbn [tree_in]. cbn [map] in F. inversion F as [|? ? A B]; subst.
    destruct (unit_place_in u d (S u I) J) as (IN & _). unfold to_unit_offset.
    destruct ((ud_begin (ru_place x) + ud_first (ru_place x) <=? ud_begin (ru_place u) + rd_offset d) &&
              (ud_begin (ru_place u) + rd_offset d <? ud_end (ru_place x))) eqn:C.
    - apply andb_true_iff in C. destruct C as (C1 & C2). apply N.leb_le in C1. apply N.ltb_lt in C2.
      destruct I as [->|I].
      + replace (ud_begin (ru_place u) + rd_offset d - ud_begin (ru_place u)) with (rd_offset d) by lia.
        destruct (raw_find_complete (rd_offset d) (ru_root u)) as (y & E); [now exists d|]. rewrite E.
        apply raw_find_sound in E. destruct E as (Iy & E). f_equal. f_equal.
        apply (entry_once u); auto. apply S. now left.
      + exfalso. rewrite Forall_forall in A. specialize (A (ru_place u)). rewrite in_map_iff in A.
        assert (X : ud_end (ru_place x) <= ud_begin (ru_place u)) by (apply A; eauto). lia.
    - destruct I as [->|I]; [|apply IH; auto; intros y Iy; apply S; now right].
      apply andb_false_iff in C. unfold inside_unit in IN. rewrite N.leb_gt, N.ltb_ge in C. lia.
  Qed.
  Lemma tree_sound us off u d : tree_in us off = Some (u, d) ->
    In u us /\ In d (raw_entries (ru_root u)) /\ off = ud_begin (ru_place u) + rd_offset d.
  Proof.
    induction us as [|x us IH]; [discriminate|]. cbn [tree_in]. unfold to_unit_offset.
    destruct ((ud_begin (ru_place x) + ud_first (ru_place x) <=? off) && (off <? ud_end (ru_place x))) eqn:C.
    - destruct (raw_find _ _) as [y|] eqn:E; [|discriminate]. intros [= <- <-]. apply raw_find_sound in E.
      apply andb_true_iff in C. rewrite N.leb_le in C. split; [now left|]. split; [tauto|]. lia.
    - intros E. apply IH in E. destruct E as (A & B & C'). split; [now right|auto].
  Qed.
  Lemma raw_tree_iff off u d : raw_tree rf off = Some (u, d) <->
    In u (rf_units rf) /\ In d (raw_entries (ru_root u)) /\ off = ud_begin (ru_place u) + rd_offset d.
  Proof.
    split; [apply tree_sound|]. intros (I & J & ->). apply tree_found; auto. apply WF.
  Qed.

  Lemma below_entry u d : In d (raw_below u) -> In d (raw_entries (ru_root u)).
  Proof. intros I. rewrite entries_root. now right. Qed.

  Variable ob : object_input.
  Hypothesis RD : read_file rf = Some ob.

  Lemma read_units : ob_units ob = map (read_unit rf) (rf_units rf).
  Proof. unfold read_file in RD. destruct (forallb _ _); [|discriminate]. injection RD as <-. reflexivity. Qed.

  Lemma read_well_formed : well_formed ob.
  Proof.
    unfold well_formed, all_entries. rewrite read_units.
    assert (E : flat_map unit_entries (map (read_unit rf) (rf_units rf)) =
                flat_map (fun u => map (read_die rf u) (raw_below u)) (rf_units rf)).
    { induction (rf_units rf) as [|u l IH]; [reflexivity|]. cbn [map flat_map]. now rewrite read_below, IH. }
    rewrite E. split.
    - rewrite map_flat_map.
      assert (G : forall us, (forall u, In u us -> In u (rf_units rf)) ->
                ForallOrdPairs (fun u v => ud_end u <= ud_begin v) (map ru_place us) ->
                NoDup (flat_map (fun u => map die_offset (map (read_die rf u) (raw_below u))) us)).
      { induction us as [|u us IH]; intros S F; [constructor|]. cbn [flat_map]. cbn [map] in F. inversion F as [|? ? A B]; subst.
        assert (OF : forall v o, In v (rf_units rf) -> In o (map die_offset (map (read_die rf v) (raw_below v))) -> inside_unit o (ru_place v)).
        { intros v o Iv Io. rewrite map_map in Io. apply in_map_iff in Io. destruct Io as (d & <- & Id). rewrite read_offset.
          now apply unit_place_in; [|apply below_entry]. }
        assert (AP : forall l m : list N, NoDup l -> NoDup m -> (forall x, In x l -> ~ In x m) -> NoDup (l ++ m)).
        { clear. induction l as [|x l IH]; intros m D1 D2 H; [exact D2|]. inversion D1; subst. cbn. constructor.
          - rewrite in_app_iff. intros [X|X]; [contradiction|]. apply (H x); [now left|exact X].
          - apply IH; auto. intros y I. apply H. now right. }
        apply AP.
        - rewrite map_map. assert (D : NoDup (map rd_offset (raw_below u))).
          { destruct WF as (_ & W). destruct (W u (S u (or_introl eq_refl))) as (_ & D & _). rewrite entries_root in D. now inversion D. }
          clear - D. induction (raw_below u) as [|d l IH]; [constructor|]. cbn [map] in *. inversion D as [|? ? NI D']; subst. constructor; [|now apply IH].
          intros I. apply NI. apply in_map_iff in I. destruct I as (e & E & I). rewrite !read_offset in E. apply in_map_iff. exists e. split; [lia|exact I].
        - apply IH; [intros v I; apply S; now right|exact B].
        - intros o Io Jo. apply in_flat_map in Jo. destruct Jo as (v & Iv & Jo).
          apply (OF u) in Io; [|apply S; now left]. apply (OF v) in Jo; [|apply S; now right].
          rewrite Forall_forall in A. specialize (A (ru_place v) (in_map _ _ _ Iv)). unfold inside_unit in *. lia. }
      apply G; [auto|]. apply WF.
    - apply Forall_forall. intros d I. apply in_flat_map in I. destruct I as (u & Iu & I). apply in_map_iff in I. destruct I as (e & <- & I).
      rewrite read_offset. now apply unit_place_in; [|apply below_entry].
  Qed.

  Lemma entry_read u d : In u (rf_units rf) -> In d (raw_below u) ->
    entry_in (ob_units ob) (ud_begin (ru_place u) + rd_offset d) = Some (read_unit rf u, read_die rf u d).
  Proof.
    intros I J. rewrite <- (read_offset rf u d). apply entry_in_complete; [exact read_well_formed| |].
    - rewrite read_units. now apply in_map.
    - rewrite read_below. now apply in_map.
  Qed.
End File.
