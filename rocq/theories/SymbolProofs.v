(** Proofs about the symbol handling of [File::normalize]. *)
From Coq Require Import List Arith NArith Lia Bool String Sorted Permutation.
From Coq Require Import ZifyBool ZifyNat ZifyN.
From Verif Require Import Base BaseProofs RangeModel RangeSpec RangeProofs TypeModel LayoutModel
  FileModel FileSpec.
Import ListNotations.
Local Open Scope N_scope.

Definition sy_le (a b : symbol) : Prop := sy_address a <= sy_address b.
Definition at_addr (address : N) (s : symbol) : bool := sy_address s =? address.

Definition sy_cmp (a b : symbol) := N.compare (sy_address a) (sy_address b).
Lemma sy_cmp_tp : total_preorder sy_cmp.
Proof. apply (cmp_on_tp sy_address). apply N_compare_tp. Qed.

Lemma sort_symbols_sorted l : StronglySorted sy_le (sort_symbols l).
Proof.
  pose proof (stable_sort_sorted sy_cmp sy_cmp_tp l) as S. unfold sort_symbols.
  change (fun a b => _) with sy_cmp.
  exact S.
Qed.

Lemma sort_symbols_perm l : Permutation (sort_symbols l) l.
Proof. apply stable_sort_perm. Qed.

(** A sorted list of symbols splits into those below, at, and above an address. *)
Lemma split_at l address :
  StronglySorted sy_le l ->
  l = filter (fun s => sy_address s <? address) l ++ filter (at_addr address) l ++
      filter (fun s => address <? sy_address s) l.
Proof.
  unfold at_addr. induction 1 as [|x l S IH F]; [reflexivity|].
  rewrite Forall_forall in F. unfold sy_le in F. cbn [filter].
  destruct (N.ltb_spec (sy_address x) address) as [H|H].
  - replace (sy_address x =? address) with false by lia.
    replace (address <? sy_address x) with false by lia. cbn. f_equal. exact IH.
  - assert (E : filter (fun s => sy_address s <? address) l = []).
    { clear IH. induction l as [|y l IH]; [reflexivity|]. cbn.
      assert (sy_address x <= sy_address y) by (apply F; left; auto).
      replace (sy_address y <? address) with false by lia. inversion S; subst.
      apply IH; auto. intros z Hz. apply F. now right. }
    rewrite E in IH |- *. cbn [app] in *.
    destruct (N.eqb_spec (sy_address x) address) as [H'|H'].
    + replace (address <? sy_address x) with false by lia. cbn. f_equal. exact IH.
    + replace (address <? sy_address x) with true by lia.
      assert (E' : filter (fun s => sy_address s =? address) l = []).
      { clear IH E. induction l as [|y l IH]; [reflexivity|]. cbn.
        assert (sy_address x <= sy_address y) by (apply F; left; auto).
        replace (sy_address y =? address) with false by lia. inversion S; subst.
        apply IH; auto. intros z Hz. apply F. now right. }
      rewrite E' in IH |- *. cbn. f_equal. exact IH.
Qed.

Section Get.
  Variable choice : N -> nat.
  Variables lo eq hi : list symbol.
  Variable address : N.
  Hypothesis Hlo : forall s, In s lo -> sy_address s < address.
  Hypothesis Heq : forall s, In s eq -> sy_address s = address.
  Hypothesis Hhi : forall s, In s hi -> address < sy_address s.
  Let l := lo ++ eq ++ hi.

  Lemma nth_addr i s :
    nth_error l i = Some s ->
    sy_address s = address <-> (List.length lo <= i < List.length lo + List.length eq)%nat.
  Proof.
    intros E. unfold l in E.
    destruct (Nat.lt_ge_cases i (List.length lo)) as [H|H].
    { rewrite nth_error_app1 in E by auto. apply nth_error_In, Hlo in E. split; lia. }
    rewrite nth_error_app2 in E by auto.
    destruct (Nat.lt_ge_cases (i - List.length lo) (List.length eq)) as [H'|H'].
    { rewrite nth_error_app1 in E by auto. apply nth_error_In, Heq in E. split; lia. }
    rewrite nth_error_app2 in E by auto. apply nth_error_In, Hhi in E. split; lia.
  Qed.

  Lemma matching_spec i :
    In i (matching_indices l address) <->
    (List.length lo <= i < List.length lo + List.length eq)%nat.
  Proof.
    unfold matching_indices. rewrite filter_In, in_seq.
    destruct (nth_error l i) as [s|] eqn:E.
    - rewrite N.eqb_eq, (nth_addr i s E).
      assert (i < List.length l)%nat by (apply nth_error_Some; congruence). lia.
    - apply nth_error_None in E. unfold l in E. rewrite !app_length in E. split; [intuition discriminate|].
      lia.
  Qed.

  Lemma binary_search_spec :
    match binary_search choice l address with
    | Some i => (List.length lo <= i < List.length lo + List.length eq)%nat
    | None => eq = []
    end.
  Proof.
    unfold binary_search. destruct (matching_indices l address) as [|j m] eqn:E.
    - destruct (Nat.eq_dec (List.length eq) 0) as [Z|Z]; [now apply length_zero_iff_nil|exfalso].
      assert (H : In (List.length lo) (matching_indices l address)) by (apply matching_spec; lia).
      rewrite E in H. destruct H.
    - destruct (nth_error (j :: m) (choice address mod List.length (j :: m))) as [i|] eqn:F.
      + apply matching_spec. rewrite E. eapply nth_error_In; eauto.
      + exfalso. apply nth_error_None in F.
        pose proof (Nat.mod_upper_bound (choice address) (List.length (j :: m))).
        cbn [List.length] in *. lia.
  Qed.

  Lemma walk_back_spec i :
    (List.length lo <= i < List.length lo + List.length eq)%nat ->
    walk_back l address i = List.length lo.
  Proof.
    induction i as [|i IH]; intros H; cbn [walk_back]; [lia|].
    destruct (nth_error l i) as [s|] eqn:E.
    - pose proof (nth_addr i s E) as A.
      destruct (N.eqb_spec (sy_address s) address) as [H'|H'].
      + apply IH. apply A in H'. lia.
      + destruct (Nat.lt_ge_cases i (List.length lo)); [lia|].
        exfalso. apply H', A. lia.
    - exfalso. apply nth_error_None in E. unfold l in E. rewrite !app_length in E. lia.
  Qed.
End Get.

(** The used flags after marking an address. *)
Definition flags (addrs : list N) (symbols : list symbol) : list bool :=
  map (fun s => existsb (N.eqb (sy_address s)) addrs) symbols.

Lemma flags_app addrs l m : flags addrs (l ++ m) = flags addrs l ++ flags addrs m.
Proof. apply map_app. Qed.

Lemma flags_length addrs l : List.length (flags addrs l) = List.length l.
Proof. apply map_length. Qed.

Lemma flags_snoc_other addrs address l :
  (forall s, In s l -> sy_address s <> address) ->
  flags (addrs ++ [address]) l = flags addrs l.
Proof.
  intros H. unfold flags. apply map_ext_in. intros s Hs.
  rewrite existsb_app. cbn. apply H in Hs. replace (sy_address s =? address) with false by lia.
  now rewrite !orb_false_r.
Qed.

Lemma mark_symbols_spec eq hi addrs address name found :
  (forall s, In s eq -> sy_address s = address) ->
  (forall s, In s hi -> address < sy_address s) ->
  mark_symbols (eq ++ hi) (flags addrs (eq ++ hi)) address name found =
  (flags (addrs ++ [address]) (eq ++ hi),
   found || existsb (fun s => opt_string_eqb (sy_name s) name) eq).
Proof.
  intros Heq Hhi. revert found. induction eq as [|s eq IH]; intros found; cbn [app].
  - rewrite (flags_snoc_other addrs address hi).
    2:{ intros s Hs. apply Hhi in Hs. lia. }
    cbn [existsb]. rewrite orb_false_r.
    destruct hi as [|s hi]; [reflexivity|]. cbn.
    specialize (Hhi s (or_introl eq_refl)).
    now replace (sy_address s =? address) with false by lia.
  - cbn [flags map mark_symbols]. rewrite (Heq s (or_introl eq_refl)), N.eqb_refl. cbn [negb].
    fold (flags addrs (eq ++ hi)). rewrite IH by (intros; apply Heq; now right).
    cbn [existsb]. f_equal.
    + cbn [flags map]. rewrite existsb_app. cbn [existsb].
      rewrite N.eqb_refl. cbn. now rewrite orb_true_r.
    + destruct (opt_string_eqb (sy_name s) name); destruct found; reflexivity.
Qed.

Definition pick_symbol (eq : list symbol) (name : option string) : option symbol :=
  match eq with
  | [] => None
  | s :: _ => if existsb (fun s => opt_string_eqb (sy_name s) name) eq then None else Some s
  end.

Lemma get_symbol_spec choice l addrs address name :
  StronglySorted sy_le l ->
  get_symbol choice l (flags addrs l) address name =
  (pick_symbol (filter (at_addr address) l) name, flags (addrs ++ [address]) l).
Proof.
  intros S. pose proof (split_at l address S) as E.
  set (lo := filter (fun s => sy_address s <? address) l) in *.
  set (eq := filter (at_addr address) l) in *.
  set (hi := filter (fun s => address <? sy_address s) l) in *.
  assert (Hlo : forall s, In s lo -> sy_address s < address).
  { intros s H. apply filter_In in H as [_ H]. lia. }
  assert (Heq : forall s, In s eq -> sy_address s = address).
  { intros s H. apply filter_In in H as [_ H]. unfold at_addr in H. lia. }
  assert (Hhi : forall s, In s hi -> address < sy_address s).
  { intros s H. apply filter_In in H as [_ H]. lia. }
  clearbody lo eq hi. subst l. unfold get_symbol.
  pose proof (binary_search_spec choice lo eq hi address Hlo Heq Hhi) as B.
  destruct (binary_search _ _ _) as [i|].
  - rewrite (walk_back_spec choice lo eq hi address Hlo Heq Hhi i B).
    rewrite flags_app, skipn_app, skipn_all, Nat.sub_diag. cbn [skipn app].
    rewrite skipn_app, firstn_app, !flags_length, Nat.sub_diag. cbn [skipn firstn].
    rewrite skipn_all2 by (now rewrite flags_length). cbn [app].
    rewrite firstn_all2 by (now rewrite flags_length). rewrite app_nil_r.
    rewrite mark_symbols_spec by auto. cbn [orb]. f_equal.
    + destruct eq as [|s eq]; [cbn in B; lia|]. cbn [pick_symbol].
      rewrite nth_error_app2, Nat.sub_diag by auto. reflexivity.
    + rewrite (flags_app _ lo). f_equal. symmetry. apply flags_snoc_other.
      intros s Hs. apply Hlo in Hs. lia.
  - subst eq. cbn [pick_symbol]. f_equal. symmetry. apply flags_snoc_other.
    intros s Hs. apply in_app_iff in Hs as [Hs|Hs]; [apply Hlo in Hs|apply Hhi in Hs]; lia.
Qed.

(** ** The loops *)

Definition fn_addrs (f : func) : list N :=
  match opt64_get (fn_address f) with
  | Some a => a :: map rbegin (tl (fn_ranges f))
  | None => []
  end.
Definition va_addrs (v : var) : list N := opt_list (opt64_get (va_address v)).
Definition un_addrs (u : unit) : list N :=
  flat_map fn_addrs (un_functions u) ++ flat_map va_addrs (un_variables u).

Definition new_fn (symbols : list symbol) (f : func) : func :=
  match opt64_get (fn_address f) with
  | None => f
  | Some a =>
      match pick_symbol (filter (at_addr a) symbols) (or_else (fn_linkage_name f) (fn_name f)) with
      | Some s => set_fn_symbol f (sy_name s)
      | None => f
      end
  end.
Definition new_va (symbols : list symbol) (v : var) : var :=
  match opt64_get (va_address v) with
  | None => v
  | Some a =>
      match pick_symbol (filter (at_addr a) symbols) (or_else (va_linkage_name v) (va_name v)) with
      | Some s => set_va_symbol v (sy_name s)
      | None => v
      end
  end.
Definition new_un (symbols : list symbol) (u : unit) : unit :=
  mkUnit (un_name u) (un_ranges u) (un_types u)
    (map (new_fn symbols) (un_functions u)) (map (new_va symbols) (un_variables u)).

Section Loops.
  Variable choice : N -> nat.
  Variable l : list symbol.
  Hypothesis S : StronglySorted sy_le l.

  Lemma secondary_spec rs addrs :
    fold_left (fun us r => snd (get_symbol choice l us (rbegin r) None)) rs (flags addrs l) =
    flags (addrs ++ map rbegin rs) l.
  Proof.
    revert addrs. induction rs as [|r rs IH]; intros addrs; cbn [fold_left map].
    - now rewrite app_nil_r.
    - rewrite get_symbol_spec by auto. cbn [snd]. rewrite IH. now rewrite <- app_assoc.
  Qed.

  Lemma symbolize_function_spec addrs f :
    symbolize_function choice l (flags addrs l) f = (new_fn l f, flags (addrs ++ fn_addrs f) l).
  Proof.
    unfold symbolize_function, new_fn, fn_addrs. destruct (opt64_get (fn_address f)) as [a|].
    - rewrite get_symbol_spec by auto. rewrite secondary_spec. now rewrite <- app_assoc.
    - now rewrite app_nil_r.
  Qed.

  Lemma symbolize_variable_spec addrs v :
    symbolize_variable choice l (flags addrs l) v = (new_va l v, flags (addrs ++ va_addrs v) l).
  Proof.
    unfold symbolize_variable, new_va, va_addrs. destruct (opt64_get (va_address v)) as [a|].
    - rewrite get_symbol_spec by auto. reflexivity.
    - cbn. now rewrite app_nil_r.
  Qed.

  Lemma map_used_spec {A} (step : list bool -> A -> A * list bool) (g : A -> A) (h : A -> list N) :
    (forall addrs x, step (flags addrs l) x = (g x, flags (addrs ++ h x) l)) ->
    forall xs addrs, map_used step (flags addrs l) xs = (map g xs, flags (addrs ++ flat_map h xs) l).
  Proof.
    intros H xs. induction xs as [|x xs IH]; intros addrs; cbn [map_used map flat_map].
    - now rewrite app_nil_r.
    - rewrite H, IH. now rewrite <- app_assoc.
  Qed.

  Lemma symbolize_unit_spec addrs u :
    symbolize_unit choice l (flags addrs l) u = (new_un l u, flags (addrs ++ un_addrs u) l).
  Proof.
    unfold symbolize_unit.
    rewrite (map_used_spec _ _ _ symbolize_function_spec).
    rewrite (map_used_spec _ _ _ symbolize_variable_spec).
    unfold un_addrs. now rewrite <- app_assoc.
  Qed.

  Lemma symbolize_units_spec us :
    map_used (symbolize_unit choice l) (repeat false (List.length l)) us =
    (map (new_un l) us, flags (flat_map un_addrs us) l).
  Proof.
    replace (repeat false (List.length l)) with (flags [] l).
    - now rewrite (map_used_spec _ _ _ symbolize_unit_spec).
    - unfold flags. cbn. clear S. induction l; cbn; congruence.
  Qed.
End Loops.

Lemma normalize_eq choice bs f :
  let l := sort_symbols (fl_symbols f) in
  let units1 := map (new_un l) (fl_units f) ++ [symtab_unit l (flags (flat_map un_addrs (fl_units f)) l)] in
  normalize choice bs f =
  mkFile (fl_segments f) (fl_sections f) l
    (units1 ++ [unknown_unit (file_unknown_ranges bs
                  (mkFile (fl_segments f) (fl_sections f) l units1))]).
Proof.
  cbv zeta. unfold normalize.
  now rewrite symbolize_units_spec by apply sort_symbols_sorted.
Qed.

(** ** Addresses with debug info *)

Lemma in_un_addrs us addr :
  In addr (flat_map un_addrs us) <-> debug_address us addr.
Proof.
  unfold debug_address, all_functions, all_variables. rewrite in_flat_map. split.
  - intros (u & Hu & H). unfold un_addrs in H. apply in_app_iff in H as [H|H];
      apply in_flat_map in H as (x & Hx & H).
    + left. exists x. split; [apply in_flat_map; eauto|].
      unfold fn_addrs in H. destruct (opt64_get (fn_address x)) as [a|]; [|destruct H].
      split; [congruence|]. destruct H as [->|H]; [now left|right].
      apply in_map_iff in H as (r & <- & ?). eauto.
    + right. exists x. split; [apply in_flat_map; eauto|].
      unfold va_addrs in H. destruct (opt64_get (va_address x)) as [a|]; [|destruct H].
      destruct H as [->|[]]. reflexivity.
  - intros [(f & Hf & Hn & H)|(v & Hv & H)].
    + apply in_flat_map in Hf as (u & Hu & Hf). exists u. split; auto.
      unfold un_addrs. apply in_app_iff. left. apply in_flat_map. exists f. split; auto.
      unfold fn_addrs. destruct (opt64_get (fn_address f)) as [a|]; [|congruence].
      destruct H as [H|(r & Hr & <-)]; [left; congruence|right]. apply in_map; auto.
    + apply in_flat_map in Hv as (u & Hu & Hv). exists u. split; auto.
      unfold un_addrs. apply in_app_iff. right. apply in_flat_map. exists v. split; auto.
      unfold va_addrs. rewrite H. now left.
Qed.

(** ** The <symtab> unit *)

Definition unused (addrs : list N) (s : symbol) : bool :=
  negb (existsb (N.eqb (sy_address s)) addrs).

Lemma unused_spec us s :
  unused (flat_map un_addrs us) s = false <-> debug_address us (sy_address s).
Proof.
  unfold unused. rewrite negb_false_iff, existsb_exists, <- in_un_addrs. split.
  - intros (x & H & E). apply N.eqb_eq in E. now subst.
  - intros H. exists (sy_address s). split; auto. apply N.eqb_refl.
Qed.

Lemma symtab_loop_spec l addrs u :
  let un := filter (unused addrs) l in
  symtab_loop l (flags addrs l) u =
  mkUnit (un_name u) (push_all (un_ranges u) (map symbol_range un)) (un_types u)
    (un_functions u ++ map symbol_function (filter is_function_symbol un))
    (un_variables u ++ map symbol_variable (filter (fun s => negb (is_function_symbol s)) un)).
Proof.
  cbv zeta. revert u. induction l as [|s l IH]; intros u.
  - cbn. rewrite !app_nil_r. now destruct u.
  - cbn [flags map symtab_loop filter]. fold (flags addrs l).
    destruct (existsb (N.eqb (sy_address s)) addrs) eqn:E.
    { replace (unused addrs s) with false by (unfold unused; now rewrite E). apply IH. }
    replace (unused addrs s) with true by (unfold unused; now rewrite E).
    rewrite IH. cbn [map filter push_all fold_left].
    assert (K : is_function_symbol s = match sy_kind s with SymFunction => true | _ => false end)
      by (unfold is_function_symbol; destruct (sy_kind s); reflexivity).
    rewrite K. clear K.
    destruct (sy_kind s) eqn:K; cbn [un_name un_ranges un_types un_functions un_variables negb map];
      now rewrite <- app_assoc.
Qed.

Lemma symtab_unit_spec l addrs :
  let un := filter (unused addrs) l in
  symtab_unit l (flags addrs l) =
  mkUnit (Some "<symtab>"%string) (rl_sort (push_all [] (map symbol_range un))) []
    (map symbol_function (filter is_function_symbol un))
    (map symbol_variable (filter (fun s => negb (is_function_symbol s)) un)).
Proof. cbv zeta. unfold symtab_unit. rewrite symtab_loop_spec. reflexivity. Qed.

Lemma opt64_get_lt x : x < u64_max -> opt64_get x = Some x.
Proof. unfold opt64_get, opt64_is_none, opt64_none. intros H. destruct (N.eqb_spec x u64_max); [lia|reflexivity]. Qed.

Lemma symbol_range_plain s :
  symbol_in_bounds s -> symbol_range s = mkRange (sy_address s) (sy_address s + sy_size s).
Proof.
  unfold symbol_in_bounds, symbol_range. intros H. unfold add64. rewrite wrap64_small; auto.
  rewrite two64_eq. lia.
Qed.

Lemma symbol_opt64 s : symbol_in_bounds s ->
  opt64_get (sy_address s) = Some (sy_address s) /\ opt64_get (sy_size s) = Some (sy_size s).
Proof.
  unfold symbol_in_bounds. intros H. assert (u64_max = 2 ^ 64 - 1) by reflexivity.
  split; apply opt64_get_lt; lia.
Qed.

Lemma Forall2_map_r {A B} (R : A -> B -> Prop) (g : A -> B) l :
  (forall x, In x l -> R x (g x)) -> Forall2 R l (map g l).
Proof.
  induction l as [|x l IH]; intros H; cbn; constructor.
  - apply H. now left.
  - apply IH. intros y Hy. apply H. now right.
Qed.

Lemma symtab_unit_for l addrs :
  Forall symbol_in_bounds l -> Forall (fun s => 0 < sy_size s) l ->
  symtab_for (filter (unused addrs) l) (symtab_unit l (flags addrs l)).
Proof.
  intros B Z. rewrite symtab_unit_spec. rewrite Forall_forall in B, Z.
  split; [reflexivity|split; [reflexivity|split]]; cbn [un_functions un_variables];
    apply Forall2_map_r; intros s Hs; apply filter_In in Hs as [Hs _];
    apply filter_In in Hs as [Hs _]; apply B in Hs as Bs; apply Z in Hs;
    destruct (symbol_opt64 s Bs) as [Ea Es].
  - unfold symtab_function, symbol_function.
    cbn [fn_name fn_linkage_name fn_symbol_name fn_address fn_size fn_ranges fn_inline fn_declaration].
    rewrite symbol_range_plain by auto. replace (0 <? sy_size s) with true by lia. auto 10.
  - unfold symtab_variable, symbol_variable.
    cbn [va_name va_linkage_name va_symbol_name va_address va_size va_declaration]. auto 10.
Qed.

Lemma sorted_filter {A} (R : A -> A -> Prop) p l :
  StronglySorted R l -> StronglySorted R (filter p l).
Proof.
  induction 1 as [|x l S IH F]; cbn; [constructor|]. destruct (p x); auto.
  constructor; auto. rewrite Forall_forall in *. intros y Hy. apply filter_In in Hy as [Hy _]. auto.
Qed.

Lemma partition_perm {A} (p : A -> bool) l :
  Permutation l (filter (fun x => negb (p x)) l ++ filter p l).
Proof.
  induction l as [|x l IH]; cbn; [reflexivity|]. destruct (p x); cbn.
  - etransitivity; [apply perm_skip; exact IH|]. apply Permutation_middle.
  - now apply perm_skip.
Qed.

Lemma symtab_correct choice bs f :
  Forall symbol_in_bounds (fl_symbols f) -> Forall (fun s => 0 < sy_size s) (fl_symbols f) ->
  exists units claimed unclaimed st unk,
    fl_units (normalize choice bs f) = units ++ [st; unk] /\
    List.length units = List.length (fl_units f) /\
    Permutation (fl_symbols f) (claimed ++ unclaimed) /\
    (forall s, In s claimed -> debug_address (fl_units f) (sy_address s)) /\
    (forall s, In s unclaimed -> ~ debug_address (fl_units f) (sy_address s)) /\
    StronglySorted (fun a b => sy_address a <= sy_address b) unclaimed /\
    symtab_for unclaimed st.
Proof.
  intros B Z. rewrite normalize_eq. cbn [fl_units].
  set (l := sort_symbols (fl_symbols f)).
  set (addrs := flat_map un_addrs (fl_units f)).
  assert (P : Permutation l (fl_symbols f)) by apply sort_symbols_perm.
  exists (map (new_un l) (fl_units f)), (filter (fun s => negb (unused addrs s)) l),
    (filter (unused addrs) l), (symtab_unit l (flags addrs l)).
  eexists. split; [rewrite <- app_assoc; reflexivity|].
  split; [apply map_length|]. split.
  { etransitivity; [symmetry; exact P|]. apply partition_perm. }
  split.
  { intros s H. apply filter_In in H as [_ H]. apply unused_spec. now apply negb_true_iff. }
  split.
  { intros s H D. apply filter_In in H as [_ H]. apply unused_spec in D.
    fold addrs in D. congruence. }
  split.
  { apply sorted_filter. apply sort_symbols_sorted. }
  apply symtab_unit_for; (eapply Permutation_Forall; [symmetry; exact P|assumption]).
Qed.

(** ** Symbol names *)

Lemma opt_string_eqb_eq x y : opt_string_eqb x y = true <-> x = y.
Proof.
  destruct x as [x|], y as [y|]; cbn; try (split; congruence).
  rewrite String.eqb_eq. split; congruence.
Qed.

Lemma filter_head_split {A} (p : A -> bool) l s m :
  filter p l = s :: m ->
  exists before after, l = before ++ s :: after /\ p s = true /\
    forall t, In t before -> p t = false.
Proof.
  induction l as [|x l IH]; cbn; [discriminate|]. destruct (p x) eqn:E.
  - intros H. injection H as <- _. exists [], l. cbn. tauto.
  - intros H. apply IH in H as (b & a & -> & ? & Hb). exists (x :: b), a.
    split; [reflexivity|]. split; auto. intros t [<-|Ht]; auto.
Qed.

(** The symbols at one address keep their order when all are sorted. *)
Lemma sort_symbols_at l address :
  filter (at_addr address) (sort_symbols l) = filter (at_addr address) l.
Proof.
  pose proof (stable_sort_stable sy_cmp sy_cmp_tp (mkSymbol None SymVariable address 0) l) as H.
  assert (X : forall s, at_addr address s =
                match sy_cmp (mkSymbol None SymVariable address 0) s with
                | Eq => true | _ => false end).
  { intros s. unfold at_addr, sy_cmp. cbn [sy_address].
    destruct (N.compare_spec address (sy_address s)); lia. }
  rewrite !(filter_ext _ _ X). exact H.
Qed.

Lemma pick_symbol_spec symbols address own old :
  let got := match pick_symbol (filter (at_addr address) (sort_symbols symbols)) own with
             | Some s => sy_name s
             | None => old
             end in
  (keeps_name symbols address own /\ got = old) \/ given_name symbols address own got.
Proof.
  rewrite sort_symbols_at. cbv zeta.
  destruct (filter (at_addr address) symbols) as [|s m] eqn:E; cbn [pick_symbol].
  - left. split; [|reflexivity]. left. intros s Hs H.
    assert (I : In s (filter (at_addr address) symbols)).
    { apply filter_In. split; auto. unfold at_addr. lia. }
    rewrite E in I. destruct I.
  - destruct (existsb _ (s :: m)) eqn:X.
    + left. split; [|reflexivity]. right. apply existsb_exists in X as (t & Ht & X).
      apply opt_string_eqb_eq in X. rewrite <- E in Ht. apply filter_In in Ht as [Ht A].
      exists t. unfold at_addr in A. split; auto. split; auto. lia.
    + right. destruct (filter_head_split _ _ _ _ E) as (b & a & Hl & Hs & Hb).
      exists b, s, a. unfold at_addr in *. split; auto. split; [lia|]. split; auto. split.
      * intros t Ht. apply Hb in Ht. lia.
      * intros t Ht A Hn.
        assert (existsb (fun s => opt_string_eqb (sy_name s) own) (s :: m) = true); [|congruence].
        apply existsb_exists. exists t. split; [|now apply opt_string_eqb_eq].
        rewrite <- E. apply filter_In. split; auto. lia.
Qed.

Lemma or_else_own x y : or_else x y = own_name x y.
Proof. destruct x; reflexivity. Qed.

Lemma new_fn_loaded symbols f :
  loaded_function symbols f (new_fn (sort_symbols symbols) f).
Proof.
  unfold loaded_function, new_fn. destruct (opt64_get (fn_address f)) as [a|] eqn:E.
  - pose proof (pick_symbol_spec symbols a (or_else (fn_linkage_name f) (fn_name f))
                  (fn_symbol_name f)) as P.
    cbv zeta in *. rewrite or_else_own in *.
    destruct (pick_symbol _ _) as [s|]; (split; [repeat split|exact P]).
  - repeat split.
Qed.

Lemma new_va_loaded symbols v :
  loaded_variable symbols v (new_va (sort_symbols symbols) v).
Proof.
  unfold loaded_variable, new_va. destruct (opt64_get (va_address v)) as [a|] eqn:E.
  - pose proof (pick_symbol_spec symbols a (or_else (va_linkage_name v) (va_name v))
                  (va_symbol_name v)) as P.
    cbv zeta in *. rewrite or_else_own in *.
    destruct (pick_symbol _ _) as [s|]; (split; [repeat split|exact P]).
  - repeat split.
Qed.

Lemma new_un_loaded symbols u : loaded_unit symbols u (new_un (sort_symbols symbols) u).
Proof.
  split; [reflexivity|split; [reflexivity|split; [reflexivity|split]]]; cbn;
    apply Forall2_map_r; intros; auto using new_fn_loaded, new_va_loaded.
Qed.

Lemma names_correct choice bs f :
  exists units st unk,
    fl_units (normalize choice bs f) = units ++ [st; unk] /\
    Forall2 (loaded_unit (fl_symbols f)) (fl_units f) units.
Proof.
  rewrite normalize_eq. cbn [fl_units]. do 3 eexists.
  split; [rewrite <- app_assoc; reflexivity|].
  apply Forall2_map_r. intros. apply new_un_loaded.
Qed.

(** The outcome does not depend on which match the binary search returns. *)
Lemma normalize_choice c1 c2 bs f : normalize c1 bs f = normalize c2 bs f.
Proof. now rewrite !normalize_eq. Qed.
