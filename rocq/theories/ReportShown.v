(** Proofs that a report on two files in which nothing differs means that they agree. *)
From Coq Require Import List Arith NArith ZArith Bool String Ascii Lia Permutation DecimalString DecimalN DecimalPos.
From Verif Require Import CfiModel DieModel Base BaseProofs RangeModel NamespaceModel TypeModel TypeSpec LayoutModel FileModel
  DiffModel DiffSpec MergeProofs OptionsModel OptionsProofs FilterModel FilterSpec FilterProofs IdModel IdProofs PrintModel
  PrintSpec RefModel PrintProofs NameModel LocationModel CodeModel ItemModel ItemSpec ItemProofs ItemShown EntryModel
  EntrySpec EntryProofs EntryShown ReportModel ReportSpec ReportProofs PropertiesFilter.
Import ListNotations.
Local Open Scope N_scope.

(** ** Numbers *)

Lemma txt_inj a b : txt a = txt b -> a = b.
Proof.
  unfold txt. intros E. rewrite <- (string_of_list_ascii_of_string a), <- (string_of_list_ascii_of_string b). f_equal.
  revert E. generalize (list_ascii_of_string a), (list_ascii_of_string b).
  induction l as [|x l IH]; intros [|y m] E; try discriminate; [reflexivity|]. cbn [map] in E. injection E as E1 E2.
  f_equal; [|now apply IH]. rewrite <- (ascii_N_embedding x), <- (ascii_N_embedding y). now f_equal.
Qed.
Lemma dec_inj a b : dec a = dec b -> a = b.
Proof.
  intros E. apply txt_inj in E. rewrite <- (DecimalN.Unsigned.of_to a), <- (DecimalN.Unsigned.of_to b). f_equal.
  assert (X : forall n, NilZero.uint_of_string (NilZero.string_of_uint (N.to_uint n)) = Some (N.to_uint n)).
  { intros n. apply NilZero.usu. destruct n; [discriminate|]. cbn. apply DecimalPos.Unsigned.to_uint_nonnil. }
  enough (Y : Some (N.to_uint a) = Some (N.to_uint b)) by now injection Y.
  now rewrite <- !X, E.
Qed.
Lemma digits_48 d c : In c (txt (NilEmpty.string_of_uint d)) -> 48 <= c.
Proof.
  induction d; unfold txt in *; cbn [NilEmpty.string_of_uint list_ascii_of_string map]; intros I; [destruct I|..];
    (destruct I as [<-|I]; [discriminate|now apply IHd]).
Qed.
Lemma dec_digits n c : In c (dec n) -> 48 <= c.
Proof.
  unfold dec. destruct (N.to_uint n) eqn:E; [cbn; intros [<-|[]]; discriminate|..]; apply digits_48.
Qed.

Lemma count_inj a b : count_with_change a a = count_with_change a b -> a = b.
Proof.
  rewrite count_self. unfold count_with_change. destruct (N.eqb_spec b a) as [->|NE]; [reflexivity|]. intros E. exfalso.
  assert (X : In 32 (dec a)).
  { rewrite E. apply in_or_app. right. now left. }
  apply dec_digits in X. lia.
Qed.
Lemma text_eqb_eq a b : text_eqb a b = true -> a = b.
Proof.
  revert b. induction a as [|x a IH]; intros [|y b]; cbn; try discriminate; [reflexivity|].
  intros E. apply andb_true_iff in E. destruct E as [E1 E2]. apply N.eqb_eq in E1. subst. f_equal. auto.
Qed.
Lemma seq_unchanged n a b : changed n (DSeq a b) = false -> changed n a = false /\ changed n b = false.
Proof. apply orb_false_iff. Qed.
Lemma tree_unchanged n c a b : changed n (DTree c a b) = false -> changed n a = false /\ changed n b = false.
Proof. apply orb_false_iff. Qed.
Lemma section_unchanged n c l a : changed n (DSection c l a) = false -> changed n a = false.
Proof. exact (fun H => H). Qed.
Ltac unchanged_parts :=
  repeat match goal with
    | R : changed _ (DSeq _ _) = false |- _ => apply seq_unchanged in R; destruct R as [? ?]
    | R : changed _ (DTree _ _ _) = false |- _ => apply tree_unchanged in R; destruct R as [? ?]
    | R : changed _ (DSection _ _ _) = false |- _ => apply section_unchanged in R
    end.
Lemma line_unchanged n l v w : changed n (DLine l v w) = false -> text_value v = text_value w.
Proof. cbn [changed]. intros E. apply negb_false_iff in E. now apply text_eqb_eq. Qed.
Lemma field_unchanged n l v w : changed n (field2 l v w) = false -> v = w.
Proof. apply (line_unchanged n (txt l) (VText v) (VText w)). Qed.
Lemma count_unchanged n l a b : changed n (count_field2 l a b) = false -> a = b.
Proof. intros E. apply field_unchanged in E. now apply count_inj. Qed.
Lemma nonzero_unchanged n l a b : changed n (nonzero_field2 l a b) = false -> a = b.
Proof.
  unfold nonzero_field2. destruct (N.eqb_spec a 0), (N.eqb_spec b 0); cbn [negb orb]; try apply count_unchanged. congruence.
Qed.

(** ** Lists *)

Lemma rows_unchanged {A} (pa pb : A -> option pdoc) df n : forall rows e,
  all_rows pa pb df rows = Some e -> changed n e = false ->
  (forall a p, pa a = Some p -> lines n 0 p <> []) -> (forall b p, pb b = Some p -> lines n 0 p <> []) ->
  (forall a b d, df a b = Some d -> changed n d = false ->
     exists p q, pa a = Some p /\ pb b = Some q /\ forall i, lines n i p = lines n i q) ->
  exists p q, all_printed pa (lefts rows) = Some p /\ all_printed pb (rights rows) = Some q /\
    (forall i, lines n i p = lines n i q) /\ List.length (lefts rows) = List.length (rights rows).
Proof.
  induction rows as [|r rows IH]; cbn [all_rows]; intros e E C NA NB H.
  - exists PNil, PNil. auto.
  - apply bind_some in E. destruct E as (d & ED & E). apply bind_some in E. destruct E as (rest & ER & E).
    apply some_eq in E. rewrite <- E in C. cbn [changed] in C. apply orb_false_iff in C. destruct C as [C1 C2].
    destruct (IH rest ER C2 NA NB H) as (p & q & EP & EQ & L & LE).
    destruct r as [a|b|a b]; cbn [row_doc] in ED.
    + apply bind_some in ED. destruct ED as (x & EX & EY). apply some_eq in EY. rewrite <- EY in C1. cbn [changed] in C1.
      apply NA in EX. destruct (lines n 0 x); [contradiction|discriminate].
    + apply bind_some in ED. destruct ED as (x & EX & EY). apply some_eq in EY. rewrite <- EY in C1. cbn [changed] in C1.
      apply NB in EX. destruct (lines n 0 x); [contradiction|discriminate].
    + destruct (H a b d ED C1) as (x & y & EX & EY & LXY). rewrite lefts_cons, rights_cons. cbn [app all_printed].
      rewrite EX, EY, EP, EQ. cbn [bind]. eexists _, _. split; [reflexivity|]. split; [reflexivity|].
      split; [|cbn [List.length]; now f_equal]. intros i. cbn [lines]. now rewrite LXY, L.
Qed.
Lemma range_text_nonempty r : range_size_text r <> [].
Proof. unfold range_size_text. destruct (_ <? _); discriminate. Qed.
Lemma ranges_rows l1 l2 : exists e,
  compared_ord_list range_cmp print_range print_range diff_range l1 l2 = Some e.
Proof.
  apply ItemShown.all_rows_some; intros; eexists; reflexivity.
Qed.
Lemma ranges_unchanged n l1 l2 e :
  compared_ord_list range_cmp print_range print_range diff_range l1 l2 = Some e -> changed n e = false ->
  exists p q, all_printed print_range l1 = Some p /\ all_printed print_range l2 = Some q /\
    (forall i, lines n i p = lines n i q) /\ List.length l1 = List.length l2.
Proof.
  unfold compared_ord_list. rewrite merge_all_total. intros E C.
  apply (rows_unchanged print_range print_range diff_range n) in E; try assumption.
  - now rewrite merge_lefts, merge_rights in E.
  - intros r p EP. apply some_eq in EP. rewrite <- EP. cbn [lines text_value]. pose proof (range_text_nonempty r).
    now destruct (range_size_text r).
  - intros r p EP. apply some_eq in EP. rewrite <- EP. cbn [lines text_value]. pose proof (range_text_nonempty r).
    now destruct (range_size_text r).
  - intros a b d ED CD. apply some_eq in ED. rewrite <- ED in CD. apply line_unchanged in CD. cbn [text_value] in CD.
    eexists _, _. split; [reflexivity|]. split; [reflexivity|]. intros i. cbn [lines text_value]. now rewrite CD.
Qed.
Lemma collapsed_same n label c p q : (forall i, lines n i p = lines n i q) ->
  forall i, lines n i (PSection c label p) = lines n i (PSection c label q).
Proof. intros H i. cbn [lines]. now rewrite H. Qed.

Lemma section_nonempty s n : lines n 0 (print_section s) <> [].
Proof.
  unfold print_section, pseq. cbn [fold_right lines]. intros E. apply app_eq_nil in E. destruct E as [_ E].
  apply app_eq_nil in E. destruct E as [_ E]. apply app_eq_nil in E. destruct E as [E _].
  unfold count_field, field in E. cbn [lines text_value] in E. pose proof (dec_nonempty (se_size (ns_section s))) as N.
  now destruct (dec (se_size (ns_section s))).
Qed.
Lemma sections_rows choose l1 l2 : short l1 -> short l2 -> exists e,
  compared_list choose section_step section_cost (fun s => Some (print_section s))
    (fun s => Some (print_section s)) (fun a b => Some (diff_section a b)) l1 l2 = Some e.
Proof.
  intros S1 S2. unfold compared_list. destruct (script_rows choose section_step section_cost l1 l2) as (rows & -> & _ & _).
  - now apply short_cost.
  - cbn [bind]. apply ItemShown.all_rows_some; intros; eexists; reflexivity.
Qed.
Lemma sections_unchanged choose n l1 l2 e : short l1 -> short l2 ->
  compared_list choose section_step section_cost (fun s => Some (print_section s))
    (fun s => Some (print_section s)) (fun a b => Some (diff_section a b)) l1 l2 = Some e -> changed n e = false ->
  exists p q, all_printed (fun s => Some (print_section s)) l1 = Some p /\
    all_printed (fun s => Some (print_section s)) l2 = Some q /\ forall i, lines n i p = lines n i q.
Proof.
  intros S1 S2 E C. unfold compared_list in E.
  destruct (script_rows choose section_step section_cost l1 l2) as (rows & ER & L & R); [now apply short_cost|].
  rewrite ER in E. cbn [bind] in E.
  apply (rows_unchanged (fun s => Some (print_section s)) (fun s => Some (print_section s))
           (fun a b => Some (diff_section a b)) n) in E; try assumption.
  - rewrite L, R in E. destruct E as (p & q & EP & EQ & X & _). eauto.
  - intros s p EP. apply some_eq in EP. rewrite <- EP. apply section_nonempty.
  - intros s p EP. apply some_eq in EP. rewrite <- EP. apply section_nonempty.
  - intros a b d ED CD. apply some_eq in ED. rewrite <- ED in CD. unfold diff_section, dseq in CD. cbn [changed fold_right] in CD.
    apply orb_false_iff in CD. destruct CD as [C1 CD]. apply orb_false_iff in CD. destruct CD as [C2 CD].
    apply orb_false_iff in CD. destruct CD as [C3 _].
    apply (line_unchanged n []) in C1. apply (field_unchanged n "address") in C2.
    apply (count_unchanged n "size") in C3. cbn [text_value] in C1.
    eexists _, _. split; [reflexivity|]. split; [reflexivity|]. intros i. unfold print_section. now rewrite C1, C2, C3.
Qed.

(** ** Headers *)

Section Agree.
  Variable choose : list N -> list N -> list (list N) -> nat -> nat.
  Variable o : options.
  Variable pc : param_cmp.
  Variable fuel : nat.
  Variable ii : images.
  Local Notation A := (is_a ii).
  Local Notation B := (is_b ii).
  Hypothesis SA : short_image A.
  Hypothesis SB : short_image B.
  Hypothesis HT : o_html o = false.
  Hypothesis PF : (0 < fuel)%nat.

  Lemma file_header_agrees : exists e, diff_file_header choose o ii = Some e /\
    forall n i, snd (report n i e) = false -> 
      same_text n (fun p => print_file_header o A = Some p) (fun q => print_file_header o B = Some q).
  Proof.
    unfold diff_file_header. unfold diff_ranges, dcollapsed_of.
    destruct (ranges_rows (file_ranges (im_sizes A) (im_units A)) (file_ranges (im_sizes B) (im_units B))) as (er & ER).
    unfold print_range, diff_range in ER. rewrite ER. cbn [bind].
    destruct (sections_rows choose (im_sections A) (im_sections B)) as (es & ES); [apply SA|apply SB|]. rewrite ES. cbn [bind].
    exists (DSeq (DTree true (DLine [] (VText (txt "file " ++ txt (im_path A))) (VText (txt "file " ++ txt (im_path B))))
      (dseq [if p_file_address (o_print o) then DSection true (txt "addresses") er else DNil;
             count_field2 "size" (rl_size (file_ranges (im_sizes A) (im_units A))) (rl_size (file_ranges (im_sizes B) (im_units B)));
             count_field2 "fn size" (file_function_size (im_file A)) (file_function_size (im_file B));
             count_field2 "var size" (file_variable_size (im_sizes A) (im_file A)) (file_variable_size (im_sizes B) (im_file B));
             count_field2 "other size" (sub64 (sub64 (rl_size (file_ranges (im_sizes A) (im_units A))) (file_function_size (im_file A)))
                 (file_variable_size (im_sizes A) (im_file A)))
                (sub64 (sub64 (rl_size (file_ranges (im_sizes B) (im_units B))) (file_function_size (im_file B)))
                 (file_variable_size (im_sizes B) (im_file B)));
             DSection true (txt "sections") es])) DBreak).
    split; [now destruct (p_file_address (o_print o))|].
    intros n i R. apply report_unchanged in R. unfold dseq in R. cbn [fold_right] in R.
    unchanged_parts.
    repeat match goal with H : changed _ (count_field2 _ _ _) = false |- _ => apply count_unchanged in H end.
    match goal with H : changed _ (DLine _ _ _) = false |- _ => apply line_unchanged in H; cbn [text_value] in H; rename H into HP end.
    destruct (sections_unchanged choose n _ _ es (proj1 (proj2 SA)) (proj1 (proj2 SB)) ES) as (ps & qs & EPS & EQS & LS); [assumption|].
    assert (X : exists p q, (if p_file_address (o_print o) then collapsed_of "addresses" (all_printed print_range (file_ranges (im_sizes A) (im_units A))) else Some PNil) = Some p /\
       (if p_file_address (o_print o) then collapsed_of "addresses" (all_printed print_range (file_ranges (im_sizes B) (im_units B))) else Some PNil) = Some q /\
       forall i, lines n i p = lines n i q).
    { destruct (p_file_address (o_print o)); [|exists PNil, PNil; auto].
      destruct (ranges_unchanged n _ _ er ER) as (p & q & EP & EQ & L & _); [assumption|].
      unfold collapsed_of. rewrite EP, EQ. cbn [bind]. eexists _, _. split; [reflexivity|]. split; [reflexivity|].
      now apply collapsed_same. }
    destruct X as (pr & qr & EPR & EQR & LR).
    unfold same_text, print_file_header. rewrite EPR, EQR. unfold collapsed_of. rewrite EPS, EQS. cbn [bind].
    eexists _, _. split; [reflexivity|]. split; [reflexivity|].
    unfold pseq. cbn [fold_right]. 
    repeat match goal with H : ?a = ?b |- context [?a] => rewrite H end.
    cbn [lines text_value]. now rewrite LR, LS.
  Qed.

  Lemma unit_fields_agree u v : exists e, diff_unit_fields o ii u v = Some e /\
    forall n, changed n e = false ->
      exists p q, print_unit_fields o A u = Some p /\ print_unit_fields o B v = Some q /\ forall i, lines n i p = lines n i q.
  Proof.
    unfold diff_unit_fields. unfold diff_ranges, dcollapsed_of.
    destruct (ranges_rows (unit_ranges (im_sizes A) u) (unit_ranges (im_sizes B) v)) as (er & ER).
    unfold print_range, diff_range in ER. rewrite ER. cbn [bind].
    destruct (ranges_rows (unit_unknown_ranges (im_sizes A) u) (unit_unknown_ranges (im_sizes B) v)) as (ek & EK).
    rewrite EK. cbn [bind].
    set (la := unit_ranges (im_sizes A) u) in *. set (lb := unit_ranges (im_sizes B) v) in *.
    set (ka := unit_unknown_ranges (im_sizes A) u) in *. set (kb := unit_unknown_ranges (im_sizes B) v) in *.
    set (x := if (1 <? List.length la)%nat || (1 <? List.length lb)%nat then DSection true (txt "addresses") er
              else field2 "address" (unit_address_text A u la) (unit_address_text B v lb)).
    exists (dseq [if p_unit_address (o_print o) then DSeq x (DSection true (txt "unknown addresses") ek) else DNil;
       nonzero_field2 "fn size" (unit_function_size u) (unit_function_size v);
       nonzero_field2 "var size" (unit_variable_size (im_sizes A) u) (unit_variable_size (im_sizes B) v);
       nonzero_field2 "unknown size" (rl_size ka) (rl_size kb); DBreak]).
    split.
    { subst x. destruct (p_unit_address (o_print o)), ((1 <? List.length la)%nat || (1 <? List.length lb)%nat); reflexivity. }
    intros n C. unfold dseq in C. cbn [fold_right] in C. unchanged_parts.
    repeat match goal with H : changed _ (nonzero_field2 _ _ _) = false |- _ => apply nonzero_unchanged in H end.
    assert (X : exists p q, 
      (if p_unit_address (o_print o) then
          bind (if (1 <? List.length la)%nat then collapsed_of "addresses" (all_printed print_range la)
                else Some (field "address" (unit_address_text A u la))) (fun x =>
          bind (collapsed_of "unknown addresses" (all_printed print_range ka)) (fun y => Some (PSeq x y)))
        else Some PNil) = Some p /\
      (if p_unit_address (o_print o) then
          bind (if (1 <? List.length lb)%nat then collapsed_of "addresses" (all_printed print_range lb)
                else Some (field "address" (unit_address_text B v lb))) (fun x =>
          bind (collapsed_of "unknown addresses" (all_printed print_range kb)) (fun y => Some (PSeq x y)))
        else Some PNil) = Some q /\ forall i, lines n i p = lines n i q).
    { destruct (p_unit_address (o_print o)); [|exists PNil, PNil; auto]. unchanged_parts.
      destruct (ranges_unchanged n _ _ ek EK) as (pk & qk & EPK & EQK & LK & _); [assumption|].
      unfold collapsed_of. rewrite EPK, EQK. cbn [bind].
      assert (Y : exists p q, 
         (if (1 <? List.length la)%nat then bind (all_printed print_range la) (fun d => Some (PSection true (txt "addresses") d))
                else Some (field "address" (unit_address_text A u la))) = Some p /\
         (if (1 <? List.length lb)%nat then bind (all_printed print_range lb) (fun d => Some (PSection true (txt "addresses") d))
                else Some (field "address" (unit_address_text B v lb))) = Some q /\ forall i, lines n i p = lines n i q).
      { subst x. destruct ((1 <? List.length la)%nat || (1 <? List.length lb)%nat) eqn:LL; unchanged_parts.
        - destruct (ranges_unchanged n _ _ er ER) as (p & q & EP & EQ & L & LEN); [assumption|].
          rewrite LEN in *. rewrite orb_diag in LL. rewrite LL, EP, EQ. cbn [bind].
          eexists _, _. split; [reflexivity|]. split; [reflexivity|]. now apply collapsed_same.
        - apply orb_false_iff in LL. destruct LL as [-> ->]. eexists _, _. split; [reflexivity|]. split; [reflexivity|].
          intros i. match goal with H : changed _ (field2 _ _ _) = false |- _ => apply field_unchanged in H; now rewrite H end. }
      destruct Y as (p & q & -> & -> & L). cbn [bind]. eexists _, _. split; [reflexivity|]. split; [reflexivity|].
      intros i. cbn [lines]. rewrite L. now rewrite LK. }
    destruct X as (p & q & EP & EQ & L). unfold print_unit_fields. cbn [bind].
    fold la lb ka kb. rewrite EP, EQ. cbn [bind].
    eexists _, _. split; [reflexivity|]. split; [reflexivity|]. intros i. unfold pseq. cbn [fold_right].
    repeat match goal with H : ?a = ?b :> N |- context [?a] => rewrite H end.
    cbn [lines]. now rewrite L.
  Qed.

  (** Entries that are not reported are printed the same. *)
  Lemma unreported_lines e p q n i : reads e p q -> unignored e -> snd (report n i e) = false -> lines n 0 p = lines n 0 q.
  Proof.
    intros (O & N & _) U R. apply report_unchanged in R. rewrite <- (O n 0%nat), <- (N n 0%nat). now apply unchanged_sides.
  Qed.

  Variables u v : unit.
  Variables pu pv : pdoc.
  Hypothesis IU : In u (im_units A).
  Hypothesis IV : In v (im_units B).
  Hypothesis EU : print_unit o pc fuel A u = Some pu.
  Hypothesis EV : print_unit o pc fuel B v = Some pv.
  Hypothesis HE : heeds_all o.
  Hypothesis AL : units_alike o ii u v.

  Lemma type_short_a t : In t (un_types u) -> short_type t.
  Proof.
    destruct SA as (_ & _ & SU). rewrite Forall_forall in SU. destruct (SU u IU) as [ST _].
    rewrite Forall_forall in ST. apply ST.
  Qed.
  Lemma type_short_b t : In t (un_types v) -> short_type t.
  Proof.
    destruct SB as (_ & _ & SU). rewrite Forall_forall in SU. destruct (SU v IV) as [ST _].
    rewrite Forall_forall in ST. apply ST.
  Qed.
  Lemma function_short_a f : In f (un_functions u) -> short_function (im_scene A) f.
  Proof.
    destruct SA as (_ & _ & SU). rewrite Forall_forall in SU. destruct (SU u IU) as [_ ST].
    rewrite Forall_forall in ST. apply ST.
  Qed.
  Lemma function_short_b f : In f (un_functions v) -> short_function (im_scene B) f.
  Proof.
    destruct SB as (_ & _ & SU). rewrite Forall_forall in SU. destruct (SU v IV) as [_ ST].
    rewrite Forall_forall in ST. apply ST.
  Qed.
  Lemma same_type_kind x y : same_type x y -> kind_discriminant (t_kind x) = kind_discriminant (t_kind y).
  Proof.
    intros (k & i & (ns & L1 & _) & (ns' & L2 & _)). inversion L1; inversion L2; subst; try discriminate; reflexivity.
  Qed.

  Lemma paired_sorted {T} (R : T -> T -> Prop) la lb la' lb' :
    Permutation la la' -> Permutation lb lb' -> paired R la lb -> paired R la' lb'.
  Proof. intros PA PB (l & P & Q & H). exists l. split; [|split]; [now transitivity la|now transitivity lb|exact H]. Qed.

  Lemma types_agree : exists e, diff_types choose o fuel ii u v = Some e /\
    forall n i, c_type (o_category o) = true -> snd (report n i e) = false ->
      paired (fun x y => same_type x y /\
        same_text n (fun p => print_type_in o fuel A u x = Some p) (fun q => print_type_in o fuel B v y = Some q))
        (filter_types o (im_hash A) true u) (filter_types o (im_hash B) true v).
  Proof.
    unfold diff_types. destruct (c_type (o_category o)) eqn:CC; [|exists DNil; split; [reflexivity|discriminate]].
    destruct (print_unit_parts A o pc fuel HT u pu EU) as [PA _]. destruct (print_unit_parts B o pc fuel HT v pv EV) as [PB _].
    set (rows := merged_types o (im_hash A) u (im_hash B) v).
    assert (LR : Permutation (lefts rows) (filter_types o (im_hash A) true u) /\
                 Permutation (rights rows) (filter_types o (im_hash B) true v)).
    { unfold rows, merged_types. rewrite merge_all_total, merge_lefts, merge_rights. split; apply stable_sort_perm. }
    destruct LR as [PL PR].
    assert (SM : forall x y, In (MBoth x y) rows -> In x (filter_types o (im_hash A) true u) /\
                   In y (filter_types o (im_hash B) true v) /\ same_type x y).
    { intros x y I. pose proof (row_left _ _ I) as [IX IY]. apply (Permutation_in _ PL) in IX. apply (Permutation_in _ PR) in IY.
      split; [exact IX|]. split; [exact IY|]. apply row_sides in I. destruct I as (_ & _ & E).
      apply filter_In in IX, IY. destruct IX as [_ IX], IY as [_ IY]. apply filter_type_iff in IX, IY.
      apply listed_listable in IX, IY. rewrite type_cmp_id_key in E by assumption. now apply same_type_iff. }
    assert (DF : forall x y, In (MBoth x y) rows -> exists e,
              diff_type choose o fuel (ss_sides (is_scenes ii)) (im_dir A u) (im_dir B v) x y = Some e).
    { intros x y I. destruct (SM x y I) as (IX & IY & S).
      destruct (PA CC x IX) as (p & EP). destruct (PB CC y IY) as (q & EQ).
      apply (type_defined choose (ss_sides (is_scenes ii)) (proj1 SA) (proj1 SB) o fuel (im_dir A u) (im_dir B v) x y p q PF).
      - apply type_short_a. now apply filter_In in IX.
      - apply type_short_b. now apply filter_In in IY.
      - now apply same_type_kind.
      - exact EP.
      - exact EQ. }
    destruct (listed_some o ii (type_cmp_by o) (print_type_in o fuel A u) (print_type_in o fuel B v)
                (diff_type choose o fuel (ss_sides (is_scenes ii)) (im_dir A u) (im_dir B v)) rows) as (e & E).
    { intros a I. apply PA; [exact CC|]. now apply (Permutation_in _ PL). }
    { intros a I. apply PB; [exact CC|]. now apply (Permutation_in _ PR). }
    { exact DF. }
    exists e. split; [exact E|]. intros n i _ R.
    apply (listed_unreported _ _ _ _ _ _ n i rows e) in E; [|apply HE|apply HE|exact R].
    destruct E as (l & L1 & L2 & H). apply (paired_sorted _ (lefts rows) (rights rows)); [exact PL|exact PR|].
    exists l. split; [exact L1|]. split; [exact L2|]. intros x y I. destruct (H x y I) as (IR & d & ED & RD).
    destruct (SM x y IR) as (IX & IY & S). split; [exact S|].
    apply filter_In in IX, IY. destruct IX as [IX _], IY as [IY _].
    destruct (type_reads choose o fuel (ss_sides (is_scenes ii)) (im_dir A u) (im_dir B v) x y d) as (p & q & EP & EQ & RE);
      [apply SA|apply SB|now apply type_short_a|now apply type_short_b|now apply AL|exact ED|].
    exists p, q. split; [exact EP|]. split; [exact EQ|]. apply (unreported_lines d p q n i); [exact RE| |exact RD].
    eapply type_unignored; exact ED.
  Qed.

  Lemma variables_agree : exists e, diff_variables o ii u v = Some e /\
    forall n i, c_variable (o_category o) = true -> snd (report n i e) = false ->
      paired (fun x y => same_variable x y /\
        same_text n (fun p => print_variable_in o A u x = Some p) (fun q => print_variable_in o B v y = Some q))
        (filter_variables o u) (filter_variables o v).
  Proof.
    unfold diff_variables. destruct (c_variable (o_category o)) eqn:CC; [|exists DNil; split; [reflexivity|discriminate]].
    set (rows := merged_variables o u v).
    assert (LR : Permutation (lefts rows) (filter_variables o u) /\ Permutation (rights rows) (filter_variables o v)).
    { unfold rows, merged_variables. rewrite merge_all_total, merge_lefts, merge_rights. split; apply stable_sort_perm. }
    destruct LR as [PL PR].
    destruct (listed_some o ii (variable_cmp_by o) (print_variable_in o A u) (print_variable_in o B v)
                (fun a b => Some (diff_variable o (is_scenes ii) (im_dir A u) (im_dir B v) a b)) rows) as (e & E).
    { intros a I. eexists. reflexivity. }
    { intros a I. eexists. reflexivity. }
    { intros a b I. eexists. reflexivity. }
    exists e. split; [exact E|]. intros n i _ R.
    apply (listed_unreported _ _ _ _ _ _ n i rows e) in E; [|apply HE|apply HE|exact R].
    destruct E as (l & L1 & L2 & H). apply (paired_sorted _ (lefts rows) (rights rows)); [exact PL|exact PR|].
    exists l. split; [exact L1|]. split; [exact L2|]. intros x y I. destruct (H x y I) as (IR & d & ED & RD).
    apply row_sides in IR. destruct IR as (_ & _ & EQ). split; [now apply same_variable_iff|].
    eexists _, _. split; [reflexivity|]. split; [reflexivity|]. apply some_eq in ED.
    apply (unreported_lines d _ _ n i); [rewrite <- ED; apply (variable_reads o (is_scenes ii))| |exact RD].
    rewrite <- ED. apply variable_unignored, HE.
  Qed.

  Lemma functions_agree rows :
    (forall r, In r rows -> In r (merge_all function_cmp_id
      (stable_sort (fun x y => function_cmp_for_sort pc (im_hash A) x (im_hash A) y) (filter_functions o u))
      (stable_sort (fun x y => function_cmp_for_sort pc (im_hash B) x (im_hash B) y) (filter_functions o v)))) ->
    c_function (o_category o) = true ->
    exists e, diff_functions choose o pc fuel ii rows u v = Some e /\
    forall n i, snd (report n i e) = false ->
      paired (fun x y => same_function x y /\
        same_text n (printed_up_to_order o fuel (im_scene A) (im_dir A u) x)
          (printed_up_to_order o fuel (im_scene B) (im_dir B v) y)) (lefts rows) (rights rows).
  Proof.
    intros HR CC. unfold diff_functions.
    destruct (print_unit_parts A o pc fuel HT u pu EU) as [_ PA]. destruct (print_unit_parts B o pc fuel HT v pv EV) as [_ PB].
    assert (SL : forall x, In x (lefts rows) -> In x (filter_functions o u)).
    { intros x I. apply in_lefts in I. destruct I as [I|(y & I)]; apply HR, row_sides in I; [|destruct I as [I _]]; now apply sorted_in in I. }
    assert (SR : forall x, In x (rights rows) -> In x (filter_functions o v)).
    { intros x I. apply in_rights in I. destruct I as [I|(y & I)]; apply HR, row_sides in I; [|destruct I as (_ & I & _)]; now apply sorted_in in I. }
    assert (FF : forall x y, In (MBoth x y) rows -> exists e p q,
       diff_function choose o (is_scenes ii) (im_unit_id A u) fuel (im_dir A u) (im_dir B v) x y = Some e /\
       same_function x y /\
       printed_up_to_order o fuel (im_scene A) (im_dir A u) x p /\ printed_up_to_order o fuel (im_scene B) (im_dir B v) y q /\
       reads e p q /\ unignored e).
    { intros x y I. pose proof (row_left _ _ I) as [IX IY]. apply SL in IX. apply SR in IY.
      apply HR, row_sides in I. destruct I as (_ & _ & E). apply same_function_iff in E.
      destruct (PA CC x IX) as (p & EP). destruct (PB CC y IY) as (q & EQ).
      apply filter_In in IX, IY. destruct IX as [IX _], IY as [IY _].
      destruct AL as (_ & A2 & A3 & A4).
      destruct (function_fine choose o (is_scenes ii) (im_dir A u) (im_dir B v) True (im_unit_id A u) fuel x y p q
                  (function_short_a x IX) (function_short_b y IY) (fun _ => A3 x IX) (fun _ => A4 y IY)
                  (fun _ => A2 x y IX IY E) EP EQ) as (e & p' & q' & ED & P1 & P2 & R & _ & U).
      exists e, p', q'. split; [exact ED|]. split; [exact E|]. split; [exact P1|]. split; [exact P2|].
      split; [apply R; now left|apply U; apply HE]. }
    destruct (listed_some o ii (function_cmp_by o pc) (print_function_in o fuel A u) (print_function_in o fuel B v)
                (diff_function choose o (is_scenes ii) (im_unit_id A u) fuel (im_dir A u) (im_dir B v)) rows) as (e & E).
    { intros a I. apply PA; [exact CC|]. now apply SL. }
    { intros a I. apply PB; [exact CC|]. now apply SR. }
    { intros a b I. destruct (FF a b I) as (e & _ & _ & E & _). eauto. }
    exists e. split; [exact E|]. intros n i R.
    apply (listed_unreported _ _ _ _ _ _ n i rows e) in E; [|apply HE|apply HE|exact R].
    destruct E as (l & L1 & L2 & H). exists l. split; [exact L1|]. split; [exact L2|].
    intros x y I. destruct (H x y I) as (IR & d & ED & RD).
    destruct (FF x y IR) as (d' & p & q & ED' & S & P1 & P2 & RE & UN). rewrite ED in ED'. apply some_eq in ED'. subst d'.
    split; [exact S|]. exists p, q. split; [exact P1|]. split; [exact P2|]. now apply (unreported_lines d p q n i).
  Qed.

  Lemma perm_divided {T} (p : T -> bool) l : Permutation (filter (fun x => negb (p x)) l ++ filter p l) l.
  Proof.
    induction l as [|x l IH]; [constructor|]. cbn [filter]. destruct (p x); cbn [negb app].
    - apply Permutation_sym, Permutation_cons_app, Permutation_sym. exact IH.
    - now constructor.
  Qed.
  Lemma paired_app {T} (R : T -> T -> Prop) l1 l2 m1 m2 : paired R l1 l2 -> paired R m1 m2 -> paired R (l1 ++ m1) (l2 ++ m2).
  Proof.
    intros (l & P & Q & H) (m & P' & Q' & H'). exists (l ++ m)%list. rewrite !map_app.
    split; [now apply Permutation_app|]. split; [now apply Permutation_app|].
    intros a b I. apply in_app_or in I. destruct I; auto.
  Qed.

  Lemma unit_agrees : exists e, diff_unit choose o pc fuel ii u v = Some e /\
    forall n i, snd (report n i e) = false -> units_agree o fuel ii n u v.
  Proof.
    unfold diff_unit, diff_unit_body. destruct (unit_fields_agree u v) as (ef & -> & HF).
    destruct types_agree as (et & -> & HTY). destruct variables_agree as (ev & -> & HV).
    rewrite HT. cbn [bind].
    set (rows := merge_all function_cmp_id
      (stable_sort (fun x y => function_cmp_for_sort pc (im_hash A) x (im_hash A) y) (filter_functions o u))
      (stable_sort (fun x y => function_cmp_for_sort pc (im_hash B) x (im_hash B) y) (filter_functions o v))).
    assert (X : exists e, (if c_function (o_category o)
       then bind (diff_functions choose o pc fuel ii (fst (merged_functions o pc (im_hash A) u (im_hash B) v)) u v)
           (fun x => bind (diff_functions choose o pc fuel ii (snd (merged_functions o pc (im_hash A) u (im_hash B) v)) u v)
              (fun y => Some (DSeq x y))) else Some DNil) = Some e /\
        forall n i, c_function (o_category o) = true -> snd (report n i e) = false ->
          paired (fun x y => same_function x y /\
            same_text n (printed_up_to_order o fuel (im_scene A) (im_dir A u) x)
              (printed_up_to_order o fuel (im_scene B) (im_dir B v) y)) (filter_functions o u) (filter_functions o v)).
    { destruct (c_function (o_category o)) eqn:CC; [|exists DNil; split; [reflexivity|discriminate]].
      destruct (functions_agree (fst (merged_functions o pc (im_hash A) u (im_hash B) v))) as (x & -> & HX).
      { intros r I. cbn [merged_functions fst] in I. now apply filter_In in I. }
      { exact CC. }
      destruct (functions_agree (snd (merged_functions o pc (im_hash A) u (im_hash B) v))) as (y & -> & HY).
      { intros r I. cbn [merged_functions snd] in I. now apply filter_In in I. }
      { exact CC. }
      cbn [bind]. eexists. split; [reflexivity|]. intros n i _ R. cbn [report snd] in R. apply orb_false_iff in R. destruct R as [R1 R2].
      specialize (HX n i R1). specialize (HY n i R2).
      pose proof (paired_app _ _ _ _ _ HX HY) as P. revert P. cbn [merged_functions fst snd]. fold rows.
      pose proof (perm_divided row_inlined rows) as D. unfold lefts, rights. rewrite <- !flat_map_app. apply paired_sorted.
      - eapply Permutation_trans; [exact (Permutation_flat_map _ D)|]. change (Permutation (lefts rows) (filter_functions o u)).
        unfold rows. rewrite merge_all_total, merge_lefts. apply stable_sort_perm.
      - eapply Permutation_trans; [exact (Permutation_flat_map _ D)|]. change (Permutation (rights rows) (filter_functions o v)).
        unfold rows. rewrite merge_all_total, merge_rights. apply stable_sort_perm. }
    destruct X as (ex & -> & HX). cbn [bind]. eexists. split; [reflexivity|]. intros n i R.
    unfold dseq in R. cbn [fold_right] in R.
    cbn [report snd] in R. fold report in R.
    apply orb_false_iff in R. destruct R as [R1 R]. apply orb_false_iff in R. destruct R as [R2 R].
    apply orb_false_iff in R. destruct R as [R3 R]. apply orb_false_iff in R. destruct R as [R4 _].
    split; [|split; [|split]].
    - intros CC. rewrite CC in R1. apply report_unchanged in R1. apply tree_unchanged in R1. destruct R1 as [C1 C2].
      apply line_unchanged in C1. split; [exact C1|]. destruct (HF n C2) as (p & q & EP & EQ & L).
      exists p, q. auto.
    - intros CC. exists (filter_types o (im_hash A) true u), (filter_types o (im_hash B) true v).
      split; [apply C31_types|]. split; [apply C31_types|]. now apply (HTY n i).
    - intros CC. exists (filter_functions o u), (filter_functions o v).
      split; [apply C31_functions|]. split; [apply C31_functions|]. now apply (HX n i).
    - intros CC. exists (filter_variables o u), (filter_variables o v).
      split; [apply C31_variables|]. split; [apply C31_variables|]. now apply (HV n i).
  Qed.
End Agree.

Lemma files_agreed choose o pc fuel ii c given pa pb :
  short_image (is_a ii) -> short_image (is_b ii) -> o_html o = false -> (0 < fuel)%nat -> heeds_all o ->
  configured c o given ->
  (forall u v, In u (im_units (is_a ii)) -> In v (im_units (is_b ii)) -> same_unit given u v -> units_alike o ii u v) ->
  print_file o pc fuel (is_a ii) = Some pa -> print_file o pc fuel (is_b ii) = Some pb ->
  exists e, diff_file choose o pc fuel ii = Some e /\
    forall n, snd (report n 0 e) = false -> files_agree o given fuel ii n.
Proof.
  intros SA SB HT PF HE CO AL EA EB.
  unfold print_file in EA, EB. apply bind_some in EA. destruct EA as (ha & _ & EA). apply bind_some in EA. destruct EA as (ua & EUA & _).
  apply bind_some in EB. destruct EB as (hb & _ & EB). apply bind_some in EB. destruct EB as (ub & EUB & _).
  pose proof (configured_maps c o given CO) as M.
  set (rows := merged_units o (im_units (is_a ii)) (im_units (is_b ii))).
  assert (LR : Permutation (lefts rows) (filter_units o (im_units (is_a ii))) /\
               Permutation (rights rows) (filter_units o (im_units (is_b ii)))).
  { unfold rows, merged_units. rewrite merge_all_total, merge_lefts, merge_rights. split; apply stable_sort_perm. }
  destruct LR as [PL PR].
  assert (UA : forall u, In u (filter_units o (im_units (is_a ii))) -> exists p, print_unit o pc fuel (is_a ii) u = Some p).
  { intros u I. apply (all_printed_some _ _ _ EUA). unfold printed_units. now apply print_list_perm. }
  assert (UB : forall u, In u (filter_units o (im_units (is_b ii))) -> exists p, print_unit o pc fuel (is_b ii) u = Some p).
  { intros u I. apply (all_printed_some _ _ _ EUB). unfold printed_units. now apply print_list_perm. }
  assert (FF : forall u v, In (MBoth u v) rows -> exists e, diff_unit choose o pc fuel ii u v = Some e /\ same_unit given u v /\
            forall n i, snd (report n i e) = false -> units_agree o fuel ii n u v).
  { intros u v I. pose proof (row_left _ _ I) as [IX IY]. apply (Permutation_in _ PL) in IX. apply (Permutation_in _ PR) in IY.
    apply row_sides in I. destruct I as (_ & _ & E). apply (same_unit_iff given o) in E; [|exact M].
    destruct (UA u IX) as (p & EP). destruct (UB v IY) as (q & EQ).
    apply filter_In in IX, IY. destruct IX as [IX _], IY as [IY _].
    destruct (unit_agrees choose o pc fuel ii SA SB HT PF u v p q IX IY EP EQ HE (AL u v IX IY E)) as (e & ED & H).
    exists e. auto. }
  destruct (listed_some o ii (unit_cmp_by o) (print_unit o pc fuel (is_a ii)) (print_unit o pc fuel (is_b ii))
              (diff_unit choose o pc fuel ii) rows) as (e & E).
  { intros u I. apply UA. now apply (Permutation_in _ PL). }
  { intros u I. apply UB. now apply (Permutation_in _ PR). }
  { intros u v I. destruct (FF u v I) as (e & E & _). eauto. }
  assert (X : exists h, (if c_file (o_category o) then diff_file_header choose o ii else Some DNil) = Some h /\
    forall n, snd (report n 0 h) = false -> c_file (o_category o) = true ->
      same_text n (fun p => print_file_header o (is_a ii) = Some p) (fun q => print_file_header o (is_b ii) = Some q)).
  { destruct (c_file (o_category o)); [|exists DNil; split; [reflexivity|discriminate]].
    destruct (file_header_agrees choose o ii SA SB) as (h & EH & H). exists h. split; [exact EH|]. intros n R _. exact (H n 0%nat R). }
  destruct X as (h & EH & HH). unfold diff_file. fold rows. rewrite EH, E. cbn [bind]. eexists. split; [reflexivity|].
  intros n R. cbn [report snd] in R. apply orb_false_iff in R. destruct R as [R1 R2]. split; [now apply HH|].
  exists (filter_units o (im_units (is_a ii))), (filter_units o (im_units (is_b ii))).
  split; [now apply (C31_units c)|]. split; [now apply (C31_units c)|].
  apply (listed_unreported _ _ _ _ _ _ n 0 rows e) in E; [|apply HE|apply HE|exact R2].
  destruct E as (l & L1 & L2 & H). apply (paired_sorted _ (lefts rows) (rights rows)); [exact PL|exact PR|].
  exists l. split; [exact L1|]. split; [exact L2|]. intros u v I. destruct (H u v I) as (IR & d & ED & RD).
  destruct (FF u v IR) as (d' & ED' & S & HD). rewrite ED in ED'. apply some_eq in ED'. subst d'. split; [exact S|].
  exact (HD n 0%nat RD).
Qed.
