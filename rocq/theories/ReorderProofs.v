(** Another order of the items does not change what a comparison has for them. *)
From Coq Require Import List Arith NArith Bool String Permutation Lia.
From Verif Require Import Base BaseProofs RangeModel TypeModel LayoutModel RefModel FileModel OptionsModel OptionsProofs CliProofs FilterModel FilterSpec FilterProofs
  DiffModel IdModel PrintModel PrintSpec NameModel CodeModel ItemModel EntryModel ReportModel ItemProofs ItemShown EntryProofs ReportProofs RunPlain
  PropertiesFilter PropertiesListing OutlineSpec OutlineProofs OutlineNeat OutlineFile SelectSpec SelectProofs ReportSpec ReorderSpec.
Import ListNotations.
Local Open Scope list_scope.

Lemma rows_ext {T} (pa pa' pb pb' : T -> option pdoc) (df df' : T -> T -> option ddoc) rows :
  (forall x, pa x = pa' x) -> (forall x, pb x = pb' x) -> (forall x y, df x y = df' x y) -> all_rows pa pb df rows = all_rows pa' pb' df' rows.
Proof.
  intros A B D. induction rows as [|r rows IH]; [reflexivity|]. cbn [all_rows]. rewrite IH. destruct r; cbn [row_doc]; now rewrite ?A, ?B, ?D.
Qed.
Lemma list_ext {T} choose step dc (pa pa' pb pb' : T -> option pdoc) (df df' : T -> T -> option ddoc) l1 l2 :
  (forall x, pa x = pa' x) -> (forall x, pb x = pb' x) -> (forall x y, df x y = df' x y) ->
  compared_list choose step dc pa pb df l1 l2 = compared_list choose step dc pa' pb' df' l1 l2.
Proof. intros A B D. unfold compared_list. destruct (edit_script _ _ _ _ _) as [rows|]; [|reflexivity]. cbn [bind]. now apply rows_ext. Qed.

Section Reordered.
  Variables (c0 c1 : cli) (o0 o1 : options).
  Hypothesis P0 : parse_options c0 = Some o0.
  Hypothesis P1 : parse_options c1 = Some o1.
  Hypothesis SORT : only_sorts c0 c1.
  Variable choose : list N -> list N -> list (list N) -> nat -> nat.
  Variables (pc : param_cmp) (fuel : nat) (ii : images).
  Local Notation A := (is_a ii).
  Local Notation B := (is_b ii).
  Local Notation ss := (is_scenes ii).
  Local Notation depth := (N.to_nat (o_inline_depth o0)).
  Local Notation shown d := (report depth 0 d).
  Local Notation OPT := (sort_options c0 c1 o0 o1 P0 P1 SORT).

  (** ** The same comparison of two items *)
  Lemma r_inlined da db n : forall a b, diff_inlined choose o1 ss n da db a b = diff_inlined choose o0 ss n da db a b.
  Proof.
    induction n as [|n IH]; intros a b; [reflexivity|]. rewrite !diff_inlined_S.
    rewrite (list_ext choose inlined_step (inlined_cost ss da db) _ _ _ _ _ _ (il_inlined a) (il_inlined b)
      (s_inlined c0 c1 o0 o1 P0 P1 SORT (ss_a ss) da n) (s_inlined c0 c1 o0 o1 P0 P1 SORT (ss_b ss) db n) IH).
    rewrite OPT. reflexivity.
  Qed.
  Lemma r_function id da db a b : diff_function choose o1 ss id fuel da db a b = diff_function choose o0 ss id fuel da db a b.
  Proof.
    unfold diff_function, diff_function_body. cbv zeta.
    rewrite (list_ext choose inlined_step (inlined_cost ss da db) _ _ _ _ _ _ (de_inlined (sc_details (ss_a ss) a)) (de_inlined (sc_details (ss_b ss) b))
      (s_inlined c0 c1 o0 o1 P0 P1 SORT (ss_a ss) da fuel) (s_inlined c0 c1 o0 o1 P0 P1 SORT (ss_b ss) db fuel) (r_inlined da db fuel)).
    rewrite OPT. reflexivity.
  Qed.
  Lemma r_type da db a b : diff_type choose o1 fuel (ss_sides ss) da db a b = diff_type choose o0 fuel (ss_sides ss) da db a b.
  Proof. rewrite OPT. reflexivity. Qed.
  Lemma r_variable da db a b : diff_variable o1 ss da db a b = diff_variable o0 ss da db a b.
  Proof. rewrite OPT. reflexivity. Qed.
  Lemma r_fields u v : diff_unit_fields o1 ii u v = diff_unit_fields o0 ii u v.
  Proof. rewrite OPT. reflexivity. Qed.

  (** ** Rows in another order *)
  Lemma filters_perm {T} (f : T -> bool) l l' : Permutation l l' -> Permutation (filter f l) (filter f l').
  Proof.
    induction 1; cbn [filter]; [constructor|destruct (f x); [now constructor|assumption]| |etransitivity; eassumption].
    destruct (f x), (f y); try reflexivity. apply perm_swap.
  Qed.
  Lemma listed_perm {T} (f g : hash -> T -> hash -> T -> comparison) ha hb rows :
    Permutation (diff_rows f o0 ha hb rows) (diff_rows g o1 ha hb rows).
  Proof.
    unfold diff_rows. assert (I : o_ignore o1 = o_ignore o0) by (rewrite OPT; reflexivity). rewrite I. apply filters_perm.
    etransitivity; [apply stable_sort_perm|symmetry; apply stable_sort_perm].
  Qed.

  (** The lines for each row are those of its document. *)
  Definition rows_shown {T} (doc : merge_result T T -> option ddoc) (rows : list (merge_result T T)) (xs : list (merge_result T T * list (mark * line))) : Prop :=
    map fst xs = rows /\ Forall (fun x => exists d, doc (fst x) = Some d /\ snd x = fst (shown d)) xs.
  Lemma rows_of {T} (pa pb : T -> option pdoc) (df : T -> T -> option ddoc) rows : forall d, all_rows pa pb df rows = Some d ->
    exists xs, rows_shown (row_doc pa pb df) rows (map (fun x => (fst x, fst (snd x))) xs) /\
      Forall (fun x => exists e, row_doc pa pb df (fst x) = Some e /\ snd x = shown e) xs /\
      shown d = (flat_map (fun x => fst (snd x)) xs, existsb (fun x => snd (snd x)) xs).
  Proof.
    induction rows as [|r rows IH]; intros d E; cbn [all_rows] in E.
    - apply some_eq in E. subst d. exists []. repeat split; constructor.
    - destruct (row_doc pa pb df r) as [e|] eqn:R; [|discriminate]. cbn [bind] in E. destruct (all_rows pa pb df rows) as [k|]; [|discriminate].
      cbn [bind] in E. apply some_eq in E. subst d. destruct (IH _ eq_refl) as (xs & [M F] & G & L). exists ((r, shown e) :: xs).
      split; [split|split]; cbn [map fst snd].
      + now rewrite M.
      + constructor; [now exists e|exact F].
      + constructor; [now exists e|exact G].
      + cbn [report flat_map existsb fst snd]. now rewrite L.
  Qed.
  Lemma shown_of {T} (pa pb : T -> option pdoc) (df : T -> T -> option ddoc) (xs : list (merge_result T T * (list (mark * line) * bool))) :
    Forall (fun x => exists e, row_doc pa pb df (fst x) = Some e /\ snd x = shown e) xs ->
    exists d, all_rows pa pb df (map fst xs) = Some d /\ shown d = (flat_map (fun x => fst (snd x)) xs, existsb (fun x => snd (snd x)) xs).
  Proof.
    induction 1 as [|x xs (e & E & L) _ (d & D & K)]; [now exists DNil|]. exists (DSeq e d). cbn [map all_rows]. rewrite E, D. split; [reflexivity|].
    cbn [report flat_map existsb]. now rewrite K, L.
  Qed.
  Lemma existsb_perm {T} (f : T -> bool) l l' : Permutation l l' -> existsb f l = existsb f l'.
  Proof.
    induction 1; cbn [existsb]; [reflexivity|now rewrite IHPermutation| |etransitivity; eassumption]. now rewrite !orb_assoc, (orb_comm (f y)).
  Qed.
  Lemma flat_map_pair {T} (xs : list (merge_result T T * (list (mark * line) * bool))) :
    flat_map (fun x => fst (snd x)) xs = flat_map snd (map (fun x => (fst x, fst (snd x))) xs).
  Proof. induction xs as [|x xs IH]; [reflexivity|]. cbn [flat_map map snd]. now rewrite IH. Qed.
  Lemma rows_perm {T} (pa pb pa' pb' : T -> option pdoc) (df df' : T -> T -> option ddoc) rows rows' :
    (forall x, pa' x = pa x) -> (forall x, pb' x = pb x) -> (forall x y, df' x y = df x y) ->
    Permutation rows rows' -> forall d, all_rows pa pb df rows = Some d ->
    exists xs xs' e, rows_shown (row_doc pa pb df) rows xs /\ fst (shown d) = flat_map snd xs /\
      all_rows pa' pb' df' rows' = Some e /\ fst (shown e) = flat_map snd xs' /\ map fst xs' = rows' /\ Permutation xs xs' /\ snd (shown d) = snd (shown e).
  Proof.
    intros HA HB HD P d E. destruct (rows_of pa pb df rows d E) as (xs & S & G & L).
    assert (Q : exists xs', map fst xs' = rows' /\ Permutation xs xs').
    { destruct S as [M _]. rewrite map_map in M. apply Permutation_sym in P. rewrite <- M in P. apply (Permutation_map_inv fst) in P. destruct P as (ys & N & P). now exists ys. }
    destruct Q as (xs' & M & Q). assert (G' : Forall (fun x => exists e, row_doc pa pb df (fst x) = Some e /\ snd x = shown e) xs') by (eapply Permutation_Forall; eassumption).
    destruct (shown_of pa pb df xs' G') as (e & D & K).
    exists (map (fun x => (fst x, fst (snd x))) xs), (map (fun x => (fst x, fst (snd x))) xs'), e.
    split; [exact S|]. split; [rewrite L; apply flat_map_pair|]. split; [rewrite (rows_ext _ pa _ pb _ df _ HA HB HD), <- M; exact D|].
    split; [rewrite K; apply flat_map_pair|]. split; [now rewrite map_map|]. split; [now apply Permutation_map|]. rewrite L, K. cbn [snd]. now apply existsb_perm.
  Qed.
  (** A category that is not selected has no rows. *)
  Lemma rows_chosen {T} (b : bool) (pa pb pa' pb' : T -> option pdoc) (df df' : T -> T -> option ddoc) rows rows' :
    (forall x, pa' x = pa x) -> (forall x, pb' x = pb x) -> (forall x y, df' x y = df x y) ->
    Permutation rows rows' -> forall d, (if b then all_rows pa pb df rows else Some DNil) = Some d ->
    exists xs xs' e, rows_shown (row_doc pa pb df) (if b then rows else []) xs /\ fst (shown d) = flat_map snd xs /\
      (if b then all_rows pa' pb' df' rows' else Some DNil) = Some e /\ fst (shown e) = flat_map snd xs' /\
      map fst xs' = (if b then rows' else []) /\ Permutation xs xs' /\ snd (shown d) = snd (shown e).
  Proof.
    intros HA HB HD P d E. destruct b; [now apply rows_perm|]. apply some_eq in E. subst d. exists [], [], DNil. repeat split; constructor.
  Qed.

  (** ** Units *)
  Definition shown_types (o : options) (u v : unit) : list (merge_result type type) :=
    if c_type (o_category o) then diff_rows (type_cmp_by o) o (im_hash A) (im_hash B) (merged_types o (im_hash A) u (im_hash B) v) else [].
  Definition shown_functions (o : options) (u v : unit) : list (merge_result func func) :=
    if c_function (o_category o) then diff_rows (function_cmp_by o pc) o (im_hash A) (im_hash B) (fst (merged_functions o pc (im_hash A) u (im_hash B) v)) else [].
  Definition shown_inlined (o : options) (u v : unit) : list (merge_result func func) :=
    if c_function (o_category o) then diff_rows (function_cmp_by o pc) o (im_hash A) (im_hash B) (snd (merged_functions o pc (im_hash A) u (im_hash B) v)) else [].
  Definition shown_variables (o : options) (u v : unit) : list (merge_result var var) :=
    if c_variable (o_category o) then diff_rows (variable_cmp_by o) o (im_hash A) (im_hash B) (merged_variables o u v) else [].
  Definition if_differs (d : option ddoc) : option ddoc := bind d (fun d => Some (DIfDiff d)).

  (** What is written for two units that are compared. *)
  Record pair_shown (o : options) (u v : unit) (x : compared_lines) : Prop := {
    ps_own : exists d w, diff_unit_fields o ii u v = Some d /\ diff_unit choose o pc fuel ii u v = Some w /\
      co_own x = if snd (shown w) && c_unit (o_category o)
                 then fst (shown (DTree true (DLine [] (unit_value A u) (unit_value B v)) d)) else [];
    ps_types : rows_shown (row_doc (print_type_in o fuel A u) (print_type_in o fuel B v)
      (fun a b => if_differs (diff_type choose o fuel (ss_sides ss) (im_dir A u) (im_dir B v) a b))) (shown_types o u v) (co_types x);
    ps_functions : rows_shown (row_doc (print_function_in o fuel A u) (print_function_in o fuel B v)
      (fun a b => if_differs (diff_function choose o ss (im_unit_id A u) fuel (im_dir A u) (im_dir B v) a b))) (shown_functions o u v) (co_functions x);
    ps_inlined : rows_shown (row_doc (print_function_in o fuel A u) (print_function_in o fuel B v)
      (fun a b => if_differs (diff_function choose o ss (im_unit_id A u) fuel (im_dir A u) (im_dir B v) a b))) (shown_inlined o u v) (co_inlined x);
    ps_variables : rows_shown (row_doc (print_variable_in o A u) (print_variable_in o B v)
      (fun a b => if_differs (Some (diff_variable o ss (im_dir A u) (im_dir B v) a b)))) (shown_variables o u v) (co_variables x) }.
  (** What is written for a row of units. *)
  Definition unit_row_shown (o : options) (x : compared_lines) : Prop :=
    match co_units x with
    | MLeft u => exists y, ul_unit y = u /\ unit_shown o0 pc fuel A o y /\ x = unit_left y
    | MRight v => exists y, ul_unit y = v /\ unit_shown o0 pc fuel B o y /\ x = unit_right y
    | MBoth u v => pair_shown o u v x
    end.

  Hypothesis TEXT : o_html o0 = false.
  Lemma rows_silent {T} (pa pb : T -> option pdoc) (df : T -> T -> option ddoc) rows : forall d,
    all_rows pa pb (fun a b => if_differs (df a b)) rows = Some d -> snd (shown d) = false -> fst (shown d) = [].
  Proof.
    induction rows as [|r rows IH]; intros d E S; cbn [all_rows] in E; [apply some_eq in E; now subst d|].
    destruct (row_doc _ _ _ r) as [e|] eqn:R; [|discriminate]. cbn [bind] in E. destruct (all_rows _ _ _ rows) as [k|]; [|discriminate].
    cbn [bind] in E. apply some_eq in E. subst d. cbn [report fst snd] in *. apply orb_false_iff in S. destruct S as [S1 S2]. rewrite (IH _ eq_refl S2), app_nil_r.
    destruct r; cbn [row_doc] in R; unfold if_differs in R;
      match type of R with bind ?a _ = _ => destruct a as [f|]; [|discriminate] end; cbn [bind] in R; apply some_eq in R; subst e; cbn [report snd fst] in *; try discriminate.
    destruct (snd (report depth 0 f)); [discriminate|reflexivity].
  Qed.
  Lemma chosen_silent {T} (b : bool) (pa pb : T -> option pdoc) (df : T -> T -> option ddoc) rows d :
    (if b then all_rows pa pb (fun a b => if_differs (df a b)) rows else Some DNil) = Some d -> snd (shown d) = false -> fst (shown d) = [].
  Proof. destruct b; [apply rows_silent|]. intros E _. apply some_eq in E. now subst d. Qed.
  Lemma chosen_two (b : bool) (X Y : option ddoc) d : (if b then bind X (fun x => bind Y (fun y => Some (DSeq x y))) else Some DNil) = Some d ->
    exists x y, (if b then X else Some DNil) = Some x /\ (if b then Y else Some DNil) = Some y /\ shown d = shown (DSeq x y).
  Proof.
    destruct b; intros E; [|apply some_eq in E; subst d; now exists DNil, DNil].
    destruct X as [x|]; [|discriminate]. destruct Y as [y|]; [|discriminate]. apply some_eq in E. subst d. now exists x, y.
  Qed.
  Lemma two_chosen (b : bool) (X Y : option ddoc) x y : (if b then X else Some DNil) = Some x -> (if b then Y else Some DNil) = Some y ->
    exists d, (if b then bind X (fun x => bind Y (fun y => Some (DSeq x y))) else Some DNil) = Some d /\ shown d = shown (DSeq x y).
  Proof.
    destruct b; intros EX EY; [rewrite EX, EY; now exists (DSeq x y)|]. apply some_eq in EX, EY. subst x y. now exists DNil.
  Qed.
  Lemma unit_pair_sorted u v d : diff_unit choose o0 pc fuel ii u v = Some d ->
    exists x y e, co_units x = MBoth u v /\ pair_shown o0 u v x /\ fst (shown (DIfDiff d)) = lines_compared x /\
      diff_unit choose o1 pc fuel ii u v = Some e /\ fst (shown (DIfDiff e)) = lines_compared y /\ reordered x y /\ snd (shown d) = snd (shown e).
  Proof.
    intros E. assert (W := E). unfold diff_unit, diff_unit_body in E. rewrite TEXT in E. cbv zeta in E.
    destruct (diff_unit_fields o0 ii u v) as [fi|] eqn:FI; [|discriminate]. cbn [bind] in E.
    destruct (diff_types choose o0 fuel ii u v) as [ty|] eqn:TY; [|discriminate]. cbn [bind] in E.
    match type of E with bind (bind ?a _) _ = _ => destruct a as [fu|] eqn:FU; [|discriminate] end. cbn [bind] in E.
    destruct (diff_variables o0 ii u v) as [va|] eqn:VA; [|discriminate]. cbn [bind] in E. apply some_eq in E.
    assert (CAT : o_category o1 = o_category o0) by (rewrite OPT; reflexivity).
    assert (TEXT1 : o_html o1 = false) by (rewrite OPT; exact TEXT).
    assert (MT : merged_types o1 (im_hash A) u (im_hash B) v = merged_types o0 (im_hash A) u (im_hash B) v) by (rewrite OPT; reflexivity).
    assert (MF : merged_functions o1 pc (im_hash A) u (im_hash B) v = merged_functions o0 pc (im_hash A) u (im_hash B) v) by (rewrite OPT; reflexivity).
    assert (MV : merged_variables o1 u v = merged_variables o0 u v) by (rewrite OPT; reflexivity).
    destruct (chosen_two _ _ _ _ FU) as (f1 & f2 & F1 & F2 & FS).
    pose proof (s_type c0 c1 o0 o1 P0 P1 SORT fuel) as ST. pose proof (s_variable c0 c1 o0 o1 P0 P1 SORT) as SV. pose proof (s_function c0 c1 o0 o1 P0 P1 SORT fuel) as SF.
    assert (RT : forall a b, if_differs (diff_type choose o1 fuel (ss_sides ss) (im_dir A u) (im_dir B v) a b) = if_differs (diff_type choose o0 fuel (ss_sides ss) (im_dir A u) (im_dir B v) a b)) by (intros; now rewrite r_type).
    assert (RF : forall a b, if_differs (diff_function choose o1 ss (im_unit_id A u) fuel (im_dir A u) (im_dir B v) a b) = if_differs (diff_function choose o0 ss (im_unit_id A u) fuel (im_dir A u) (im_dir B v) a b)) by (intros; now rewrite r_function).
    assert (RV : forall a b, if_differs (Some (diff_variable o1 ss (im_dir A u) (im_dir B v) a b)) = if_differs (Some (diff_variable o0 ss (im_dir A u) (im_dir B v) a b))) by (intros; now rewrite r_variable).
    destruct (rows_chosen _ _ _ _ _ _ _ _ _ (ST A u) (ST B v) RT (listed_perm (type_cmp_by o0) (type_cmp_by o1) (im_hash A) (im_hash B) _) _ TY) as (ts & ts' & te & T1 & T2 & T3 & T4 & T5 & T6 & T7).
    destruct (rows_chosen _ _ _ _ _ _ _ _ _ (SF A u) (SF B v) RF (listed_perm (function_cmp_by o0 pc) (function_cmp_by o1 pc) (im_hash A) (im_hash B) _) _ F1) as (fs & fs' & fe & G1 & G2 & G3 & G4 & G5 & G6 & G7).
    destruct (rows_chosen _ _ _ _ _ _ _ _ _ (SF A u) (SF B v) RF (listed_perm (function_cmp_by o0 pc) (function_cmp_by o1 pc) (im_hash A) (im_hash B) _) _ F2) as (is & is' & ie & I1 & I2 & I3 & I4 & I5 & I6 & I7).
    destruct (rows_chosen _ _ _ _ _ _ _ _ _ (SV A u) (SV B v) RV (listed_perm (variable_cmp_by o0) (variable_cmp_by o1) (im_hash A) (im_hash B) _) _ VA) as (vs & vs' & ve & V1 & V2 & V3 & V4 & V5 & V6 & V7).
    pose proof (chosen_silent _ _ _ _ _ _ TY) as TQ. pose proof (chosen_silent _ _ _ _ _ _ F1) as GQ. pose proof (chosen_silent _ _ _ _ _ _ F2) as IQ. pose proof (chosen_silent _ _ _ (fun a b => Some (diff_variable o0 ss (im_dir A u) (im_dir B v) a b)) _ _ VA) as VQ.
    destruct (two_chosen _ _ _ _ _ G3 I3) as (fe' & FE & FES).
    pose (own := if snd (shown d) && c_unit (o_category o0) then fst (shown (DTree true (DLine [] (unit_value A u) (unit_value B v)) fi)) else []).
    exists (mkComparedLines (MBoth u v) own ts fs is vs), (mkComparedLines (MBoth u v) own ts' fs' is' vs').
    exists (dseq [(if c_unit (o_category o0) then DTree true (DLine [] (unit_value A u) (unit_value B v)) fi else DNil); te; fe'; ve]).
    split; [reflexivity|]. split.
    { constructor; [exists fi, d; now repeat split|exact T1|exact G1|exact I1|exact V1]. }
    set (hd := if c_unit (o_category o0) then DTree true (DLine [] (unit_value A u) (unit_value B v)) fi else DNil) in *.
    assert (SD : shown d = (fst (shown hd) ++ flat_map snd ts ++ (flat_map snd fs ++ flat_map snd is) ++ flat_map snd vs ++ [],
        snd (shown hd) || (snd (shown ty) || ((snd (shown f1) || snd (shown f2)) || (snd (shown va) || false))))).
    { rewrite <- E. cbn [dseq fold_right report fst snd]. rewrite FS. cbn [report fst snd]. now rewrite T2, G2, I2, V2. }
    assert (SE : shown (dseq [hd; te; fe'; ve]) = (fst (shown hd) ++ flat_map snd ts' ++ (flat_map snd fs' ++ flat_map snd is') ++ flat_map snd vs' ++ [],
        snd (shown hd) || (snd (shown te) || ((snd (shown fe) || snd (shown ie)) || (snd (shown ve) || false))))).
    { cbn [dseq fold_right report fst snd]. rewrite FES. cbn [report fst snd]. now rewrite T4, G4, I4, V4. }
    assert (SAME : snd (shown d) = snd (shown (dseq [hd; te; fe'; ve]))) by (rewrite SD, SE; cbn [snd]; now rewrite T7, G7, I7, V7).
    assert (OWN : snd (shown d) = true -> own = fst (shown hd)) by (intros Z; subst own hd; rewrite Z; now destruct (c_unit (o_category o0))).
    assert (NONE : forall T (k k' : list (merge_result T T * list (mark * line))), Permutation k k' -> flat_map snd k = [] -> flat_map snd k' = []).
    { intros T k k' P K. apply Permutation_nil. rewrite <- K. now apply Permutation_flat_map. }
    assert (QUIET : snd (shown d) = false -> own = [] /\ flat_map snd ts = [] /\ flat_map snd fs = [] /\ flat_map snd is = [] /\ flat_map snd vs = []).
    { intros Z. split; [subst own; now rewrite Z|]. rewrite SD in Z. cbn [snd] in Z. apply orb_false_iff in Z. destruct Z as [_ Z]. apply orb_false_iff in Z.
      destruct Z as [ZT Z]. apply orb_false_iff in Z. destruct Z as [Z ZV]. apply orb_false_iff in Z. destruct Z as [Z1 Z2]. apply orb_false_iff in ZV. destruct ZV as [ZV _].
      rewrite <- T2, <- G2, <- I2, <- V2. now rewrite TQ, GQ, IQ, VQ. }
    split; [|split; [|split; [|split; [now constructor|exact SAME]]]].
    - unfold lines_compared. cbn [report co_own co_types co_functions co_inlined co_variables]. destruct (snd (shown d)) eqn:Z.
      + rewrite (OWN eq_refl), SD. cbn [fst]. now rewrite app_nil_r, <- app_assoc.
      + destruct (QUIET eq_refl) as (-> & -> & -> & -> & ->). reflexivity.
    - unfold diff_unit, diff_unit_body. rewrite r_fields, FI, TEXT1, CAT. cbv zeta. cbn [bind].
      unfold diff_types, diff_functions, diff_variables, listed_rows. rewrite MT, MF, MV, CAT. unfold if_differs in T3, FE, V3. cbn [bind] in V3. rewrite T3. cbn [bind]. rewrite FE. cbn [bind]. rewrite V3. reflexivity.
    - unfold lines_compared. cbn [report co_own co_types co_functions co_inlined co_variables]. rewrite <- SAME. destruct (snd (shown d)) eqn:Z.
      + rewrite (OWN eq_refl), SE. cbn [fst]. now rewrite app_nil_r, <- app_assoc.
      + destruct (QUIET eq_refl) as (-> & QT & QF & QI & QV). now rewrite (NONE _ _ _ T6 QT), (NONE _ _ _ G6 QF), (NONE _ _ _ I6 QI), (NONE _ _ _ V6 QV).
  Qed.

  (** ** Rows of units *)
  Lemma mark_app m (a b : list line) : with_mark m (a ++ b) = with_mark m a ++ with_mark m b.
  Proof. unfold with_mark. apply map_app. Qed.
  Lemma mark_flat {T} (side : T -> merge_result T T) m (l : list (T * list line)) : flat_map snd (one_sided side m l) = with_mark m (flat_map snd l).
  Proof. induction l as [|x l IH]; [reflexivity|]. cbn [one_sided map flat_map snd]. rewrite mark_app, <- IH. reflexivity. Qed.
  Lemma left_lines x : lines_compared (unit_left x) = with_mark Old (lines_of_unit x).
  Proof. unfold lines_compared, lines_of_unit, unit_left. cbn [co_own co_types co_functions co_inlined co_variables]. now rewrite !mark_flat, !mark_app. Qed.
  Lemma right_lines x : lines_compared (unit_right x) = with_mark New (lines_of_unit x).
  Proof. unfold lines_compared, lines_of_unit, unit_right. cbn [co_own co_types co_functions co_inlined co_variables]. now rewrite !mark_flat, !mark_app. Qed.
  Lemma left_reordered x y : rearranged x y -> reordered (unit_left x) (unit_left y).
  Proof.
    intros [U O T F V]. constructor; cbn [unit_left co_units co_own co_types co_functions co_inlined co_variables];
      [now rewrite U|now rewrite O|now apply Permutation_map|now apply Permutation_map|constructor|now apply Permutation_map].
  Qed.
  Lemma right_reordered x y : rearranged x y -> reordered (unit_right x) (unit_right y).
  Proof.
    intros [U O T F V]. constructor; cbn [unit_right co_units co_own co_types co_functions co_inlined co_variables];
      [now rewrite U|now rewrite O|now apply Permutation_map|now apply Permutation_map|constructor|now apply Permutation_map].
  Qed.
  Local Notation row o := (row_doc (print_unit o pc fuel A) (print_unit o pc fuel B) (fun u v => if_differs (diff_unit choose o pc fuel ii u v))).
  Lemma unit_row_sorted r d : row o0 r = Some d ->
    exists x y e, co_units x = r /\ unit_row_shown o0 x /\ fst (shown d) = lines_compared x /\
      row o1 r = Some e /\ fst (shown e) = lines_compared y /\ reordered x y.
  Proof.
    destruct r as [u|v|u v]; cbn [row_doc].
    - destruct (print_unit o0 pc fuel A u) as [p|] eqn:E; [|discriminate]. cbn [bind]. intros K. apply some_eq in K. subst d.
      destruct (unit_sorted c0 c1 o0 o1 P0 P1 SORT pc fuel A TEXT u p E) as (x & y & e & U & S & L & E' & L' & R).
      exists (unit_left x), (unit_left y), (DDelete e). split; [cbn [unit_left co_units]; now rewrite U|]. split; [exists x; split; [reflexivity|]; split; [exact S|reflexivity]|].
      split; [cbn [report fst]; now rewrite left_lines, L|]. split; [now rewrite E'|]. split; [cbn [report fst]; now rewrite left_lines, L'|now apply left_reordered].
    - destruct (print_unit o0 pc fuel B v) as [p|] eqn:E; [|discriminate]. cbn [bind]. intros K. apply some_eq in K. subst d.
      destruct (unit_sorted c0 c1 o0 o1 P0 P1 SORT pc fuel B TEXT v p E) as (x & y & e & U & S & L & E' & L' & R).
      exists (unit_right x), (unit_right y), (DAdd e). split; [cbn [unit_right co_units]; now rewrite U|]. split; [exists x; split; [reflexivity|]; split; [exact S|reflexivity]|].
      split; [cbn [report fst]; now rewrite right_lines, L|]. split; [now rewrite E'|]. split; [cbn [report fst]; now rewrite right_lines, L'|now apply right_reordered].
    - destruct (diff_unit choose o0 pc fuel ii u v) as [p|] eqn:E; [|discriminate]. cbn [if_differs bind]. intros K. apply some_eq in K. subst d.
      destruct (unit_pair_sorted u v p E) as (x & y & e & U & S & L & E' & L' & R & _).
      exists x, y, (DIfDiff e). split; [exact U|]. split; [unfold unit_row_shown; now rewrite U|]. split; [exact L|]. split; [now rewrite E'|]. now split.
  Qed.
  Lemma unit_rows_sorted rows : forall d, all_rows (print_unit o0 pc fuel A) (print_unit o0 pc fuel B) (fun u v => if_differs (diff_unit choose o0 pc fuel ii u v)) rows = Some d ->
    exists l : list (compared_lines * compared_lines), map (fun p => co_units (fst p)) l = rows /\ Forall (fun p => unit_row_shown o0 (fst p) /\ reordered (fst p) (snd p)) l /\
      fst (shown d) = flat_map (fun p => lines_compared (fst p)) l /\
      Forall (fun p => exists e, row o1 (co_units (fst p)) = Some e /\ fst (shown e) = lines_compared (snd p)) l.
  Proof.
    induction rows as [|r rows IH]; intros d E; cbn [all_rows] in E.
    - apply some_eq in E. subst d. exists []. repeat split; constructor.
    - destruct (row o0 r) as [k|] eqn:R; [|discriminate]. cbn [bind] in E. destruct (all_rows _ _ _ rows) as [m|]; [|discriminate].
      cbn [bind] in E. apply some_eq in E. subst d. destruct (IH _ eq_refl) as (l & M & F & L & G). destruct (unit_row_sorted r k R) as (x & y & e & U & S & K & E' & K' & Q).
      exists ((x, y) :: l). split; [cbn [map fst]; now rewrite U, M|]. split; [now constructor|]. split; [cbn [report fst flat_map]; now rewrite K, L|].
      constructor; [|exact G]. cbn [fst snd]. rewrite U. now exists e.
  Qed.

  (** The rows of units of a comparison. *)
  Definition shown_units (o : options) : list (merge_result unit unit) :=
    diff_rows (unit_cmp_by o) o (im_hash A) (im_hash B) (merged_units o (im_units A) (im_units B)).
  Lemma file_reordered d : diff_file choose o0 pc fuel ii = Some d ->
    exists hs xs xs' ys e, map co_units xs = shown_units o0 /\ Forall (unit_row_shown o0) xs /\ fst (shown d) = hs ++ flat_map lines_compared xs /\
      Permutation xs xs' /\ Forall2 reordered xs' ys /\ diff_file choose o1 pc fuel ii = Some e /\ fst (shown e) = hs ++ flat_map lines_compared ys /\
      map co_units ys = shown_units o1.
  Proof.
    intros E. unfold diff_file in E. match type of E with bind ?a _ = _ => destruct a as [x|] eqn:H; [|discriminate] end. cbn [bind] in E.
    match type of E with bind ?a _ = _ => destruct a as [us|] eqn:H0; [|discriminate] end. cbn [bind] in E. apply some_eq in E. subst d.
    destruct (unit_rows_sorted _ _ H0) as (l & M & W & L & Q).
    assert (R : exists l', map (fun p => co_units (fst p)) l' = shown_units o1 /\ Permutation l l').
    { assert (P : Permutation (shown_units o1) (shown_units o0)).
      { unfold shown_units. assert (F : merged_units o1 (im_units A) (im_units B) = merged_units o0 (im_units A) (im_units B)) by (rewrite OPT; reflexivity).
        rewrite F. symmetry. apply listed_perm. }
      unfold shown_units in P at 2. rewrite <- M in P. apply Permutation_map_inv in P. destruct P as (l' & M' & P). now exists l'. }
    destruct R as (l' & M' & P).
    assert (Q' : Forall (fun p => exists e, row o1 (co_units (fst p)) = Some e /\ fst (shown e) = lines_compared (snd p)) l') by (eapply Permutation_Forall; eassumption).
    assert (W' : Forall (fun p => unit_row_shown o0 (fst p) /\ reordered (fst p) (snd p)) l') by (eapply Permutation_Forall; eassumption).
    assert (G : exists e, all_rows (print_unit o1 pc fuel A) (print_unit o1 pc fuel B) (fun u v => if_differs (diff_unit choose o1 pc fuel ii u v)) (shown_units o1) = Some e /\
      fst (shown e) = flat_map (fun p => lines_compared (snd p)) l').
    { rewrite <- M'. clear - Q'. induction Q' as [|p l (d & E & L) _ (e & EE & LE)]; [now exists DNil|]. exists (DSeq d e). cbn [map all_rows].
      rewrite E, EE. split; [reflexivity|]. cbn [report fst flat_map]. now rewrite L, LE. }
    destruct G as (e & EE & LE).
    assert (FM : forall (f : compared_lines * compared_lines -> compared_lines) k, flat_map (fun p => lines_compared (f p)) k = flat_map lines_compared (map f k)).
    { intros f k. induction k as [|p k IH]; [reflexivity|]. cbn [flat_map map]. now rewrite IH. }
    assert (HD : (if c_file (o_category o1) then diff_file_header choose o1 ii else Some DNil) = Some x) by (rewrite OPT; exact H).
    exists (fst (shown x)), (map fst l), (map fst l'), (map snd l'), (DSeq x e). split; [now rewrite map_map|]. split.
    { apply Forall_forall. intros y Y. apply in_map_iff in Y. destruct Y as (p & <- & Y). rewrite Forall_forall in W. now apply W. }
    split; [cbn [report fst]; now rewrite L, <- FM|]. split; [now apply Permutation_map|]. split.
    { clear - W'. induction W' as [|p k [_ R] _ IH]; cbn [map]; now constructor. }
    split; [unfold diff_file; rewrite HD; cbn [bind]; unfold listed_rows; fold (shown_units o1); unfold if_differs in EE; now rewrite EE|]. split; [cbn [report fst]; now rewrite LE, FM|].
    rewrite map_map, <- M'. apply map_ext_in. intros p I. rewrite Forall_forall in W'. destruct (W' p I) as [_ [U _ _ _ _ _]]. exact U.
  Qed.
End Reordered.
