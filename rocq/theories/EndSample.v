(** A file for the examples of what is printed from the values of attributes. *)
From Coq Require Import List Arith NArith ZArith Bool String Ascii Lia.
From Verif Require Import Base RangeModel NamespaceModel TypeModel FileModel FilterSpec LocationModel PrintModel PrintSpec NameModel ReadModel ReadSpec
  OptionsModel ItemModel ItemSpec EntrySpec DieModel WholeModel RawModel RawSpec EndSpec.
Import ListNotations.
Local Open Scope string_scope.
Local Open Scope list_scope.
Local Open Scope N_scope.

Definition chars (s : string) : list N := map N_of_ascii (list_ascii_of_string s).

(** [namespace geo { struct Point { int x; alignas(8) int y; }; enum Colour : int { Red, Blue = 7 };
    int norm(const Point *p, int) { .. } }; geo::Point table[3]; typedef int word; union Either { int a; word b; };
    class Derived : geo::Point { int z : 5; }; typedef struct { int n; union { int i; word w; }; } packet;]. *)
Definition int_die : raw_die := RawDie 0x24 20 [(0x03, RwString (chars "int")); (0x0b, RwConst (FixedData 1 4)); (0x3e, RwEncoding 5)] [].
Definition x_die : raw_die := RawDie 0x0d 50 [(0x03, RwString (chars "x")); (0x49, RwUnitRef 20); (0x38, RwConst (UnsignedData 0))] [].
Definition y_die : raw_die := RawDie 0x0d 60 [(0x03, RwString (chars "y")); (0x49, RwUnitRef 20); (0x38, RwConst (UnsignedData 8))] [].
Definition point_die : raw_die :=
  RawDie 0x13 40 [(0x03, RwString (chars "Point")); (0x0b, RwConst (FixedData 1 16)); (0x3a, RwFileIndex 1); (0x3b, RwConst (UnsignedData 3))]
    [x_die; y_die].
Definition red_die : raw_die := RawDie 0x28 74 [(0x03, RwString (chars "Red")); (0x1c, RwConst (SignedData 0))] [].
Definition blue_die : raw_die := RawDie 0x28 76 [(0x03, RwString (chars "Blue")); (0x1c, RwConst (SignedData 7))] [].
Definition colour_die : raw_die := RawDie 0x04 70 [(0x03, RwString (chars "Colour")); (0x49, RwUnitRef 20)] [red_die; blue_die].
Definition p_die : raw_die := RawDie 0x05 84 [(0x03, RwString (chars "p")); (0x49, RwUnitRef 110)] [].
Definition second_die : raw_die := RawDie 0x05 86 [(0x49, RwUnitRef 20)] [].
Definition norm_die : raw_die :=
  RawDie 0x2e 80 [(0x03, RwString (chars "norm")); (0x6e, RwString (chars "_ZN3geo4normEPKNS_5PointEi")); (0x49, RwUnitRef 20);
    (0x3a, RwFileIndex 1); (0x3b, RwConst (UnsignedData 9)); (0x11, RwAddress 0x1000); (0x12, RwConst (UnsignedData 32))] [p_die; second_die].
Definition geo_die : raw_die := RawDie 0x39 30 [(0x03, RwString (chars "geo"))] [point_die; colour_die; norm_die].
Definition const_die : raw_die := RawDie 0x26 100 [(0x49, RwUnitRef 40)] [].
Definition pointer_die : raw_die := RawDie 0x0f 110 [(0x49, RwUnitRef 100)] [].
Definition dimension_die : raw_die := RawDie 0x21 124 [(0x37, RwConst (UnsignedData 3))] [].
Definition array_die : raw_die := RawDie 0x01 120 [(0x49, RwUnitRef 40)] [dimension_die].
Definition table_die : raw_die :=
  RawDie 0x34 130 [(0x03, RwString (chars "table")); (0x49, RwUnitRef 120); (0x02, RwExpression [] [(GAddress 0x2000, None)] [OAddress 0x2000])] [].
Definition word_die : raw_die := RawDie 0x16 140 [(0x03, RwString (chars "word")); (0x49, RwUnitRef 20)] [].
Definition a_die : raw_die := RawDie 0x0d 154 [(0x03, RwString (chars "a")); (0x49, RwUnitRef 20)] [].
Definition b_die : raw_die := RawDie 0x0d 156 [(0x03, RwString (chars "b")); (0x49, RwUnitRef 140)] [].
Definition either_die : raw_die := RawDie 0x17 150 [(0x03, RwString (chars "Either")); (0x0b, RwConst (FixedData 1 4))] [a_die; b_die].
Definition base_die : raw_die := RawDie 0x1c 162 [(0x49, RwUnitRef 40); (0x38, RwConst (UnsignedData 0))] [].
Definition z_die : raw_die := RawDie 0x0d 164 [(0x03, RwString (chars "z")); (0x49, RwUnitRef 20); (0x0d, RwConst (FixedData 1 5)); (0x6b, RwConst (UnsignedData 131))] [].
Definition derived_die : raw_die := RawDie 0x02 160 [(0x03, RwString (chars "Derived")); (0x0b, RwConst (FixedData 1 24))] [z_die; base_die].
Definition n_die : raw_die := RawDie 0x0d 172 [(0x03, RwString (chars "n")); (0x49, RwUnitRef 20); (0x38, RwConst (UnsignedData 0))] [].
Definition inner_die : raw_die := RawDie 0x0d 174 [(0x49, RwUnitRef 180); (0x38, RwConst (UnsignedData 4))] [].
Definition struct_die : raw_die := RawDie 0x13 170 [(0x0b, RwConst (FixedData 1 8))] [n_die; inner_die].
Definition i_die : raw_die := RawDie 0x0d 182 [(0x03, RwString (chars "i")); (0x49, RwUnitRef 20)] [].
Definition w_die : raw_die := RawDie 0x0d 184 [(0x03, RwString (chars "w")); (0x49, RwUnitRef 140)] [].
Definition union_die : raw_die := RawDie 0x17 180 [(0x0b, RwConst (FixedData 1 4))] [i_die; w_die].
Definition packet_die : raw_die := RawDie 0x16 190 [(0x03, RwString (chars "packet")); (0x49, RwUnitRef 170)] [].
Definition sample_raw_unit : raw_unit :=
  mkRawUnit (mkPlace 0 11 200)
    (RawDie 0x11 11
       [(0x03, RwString (chars "a.cpp")); (0x1b, RwString (chars "/src")); (0x13, RwLanguage 0x21); (0x11, RwAddress 0x1000);
        (0x12, RwConst (UnsignedData 32))]
       [int_die; geo_die; const_die; pointer_die; array_die; table_die; word_die; either_die; derived_die; struct_die; union_die; packet_die])
    (Some (mkRawLines 4 (Some (RwString (chars "/src"))) [RwString (chars "inc")]
             [(RwString (chars "a.h"), 1); (RwString (chars "a.cpp"), 0)] [(0x1000, false); (0x1020, true)]))
    4 8 [] [] [] (fun _ => None) [] (fun _ => None).
Definition sample_raw : raw_file :=
  mkRawFile "a.out" false [] [] [mkObjectSymbol "_ZN3geo4normEPKNS_5PointEi" OText 0x1000 32] [sample_raw_unit] [] [] (fun _ => None) None.
Definition sample_read : object_input :=
  match read_file sample_raw with Some ob => ob | None => mkObjectInput "" false [] [] [] [] (fun _ => EncOther) (fun _ => EndDefault) (fun _ => []) (fun _ => None) None end.
Definition sample_arguments : cli := mkCli None None None [] [] None [] [].
Definition sample_settings : options := Eval vm_compute in
  match parse_options sample_arguments as x return match x with Some _ => options | None => True end with Some o => o | None => I end.
Definition sample_first (n : N) : nat := O.

Lemma sample_raw_well_formed : raw_well_formed sample_raw.
Proof.
  split.
  - split; cbn; repeat constructor; discriminate.
  - intros u [<-|[]]. split; [discriminate|]. split; [vm_compute; repeat (constructor; [cbn; intuition discriminate|]); constructor|].
    intros d I. unfold inside_unit. cbn in I. repeat (destruct I as [<-|I]; [split; [discriminate|reflexivity]|]). destruct I.
Qed.
Lemma sample_settings_from : configured sample_arguments sample_settings [].
Proof. split; [reflexivity|constructor]. Qed.

(** Every type of the sample refers to entries before it. *)
Lemma sample_raw_acyclic : raw_acyclic sample_raw.
Proof.
  assert (BACK : forall d c o, In d (raw_below sample_raw_unit) ->
    In (rd_tag d) ([0x01; 0x21; 0x15; 0x1f] ++ map fst modifier_words) -> In (c, RwUnitRef o) (rd_attrs d) -> o < rd_offset d).
  { intros d c o I T A. 
    assert (C : forallb (fun d => negb (existsb (N.eqb (rd_tag d)) ([0x01; 0x21; 0x15; 0x1f] ++ map fst modifier_words)) ||
      forallb (fun a => match snd a with RwUnitRef o => o <? rd_offset d | _ => true end) (rd_attrs d)) (raw_below sample_raw_unit) = true) by reflexivity.
    rewrite forallb_forall in C. specialize (C d I). apply orb_true_iff in C. destruct C as [C|C].
    - apply negb_true_iff in C. assert (X : existsb (N.eqb (rd_tag d)) ([0x01; 0x21; 0x15; 0x1f] ++ map fst modifier_words) = true).
      { apply existsb_exists. exists (rd_tag d). split; [exact T|apply N.eqb_refl]. } congruence.
    - rewrite forallb_forall in C. specialize (C _ A). now apply N.ltb_lt in C. }
  assert (INFO : forall d c o, In d (raw_below sample_raw_unit) -> ~ In (c, RwInfoRef o) (rd_attrs d)).
  { intros d c o I A. assert (C : forallb (fun d => forallb (fun a => match snd a with RwInfoRef _ => false | _ => true end) (rd_attrs d))
      (raw_below sample_raw_unit) = true) by reflexivity.
    rewrite forallb_forall in C. specialize (C d I). rewrite forallb_forall in C. specialize (C _ A). discriminate. }
  assert (NOFN : forall d, In d (raw_below sample_raw_unit) -> rd_tag d <> 0x15).
  { intros d I. assert (C : forallb (fun d => negb (rd_tag d =? 0x15)) (raw_below sample_raw_unit) = true) by reflexivity.
    rewrite forallb_forall in C. specialize (C d I). now apply negb_true_iff, N.eqb_neq in C. }
  assert (H : forall n u d, In u (rf_units sample_raw) -> In d (raw_below u) -> rd_offset d < n -> ends sample_raw u d).
  { intros n. induction n as [|n IH] using N.peano_ind; intros u d [<-|[]] J L; [lia|].
    constructor. intros x e [c v T A C P|p v T]; [|now destruct (NOFN d J)].
    destruct P as [o x e Ix Je E|x e Ix Je]; [|now destruct (INFO d _ _ J A)].
    apply IH; auto. specialize (BACK d c o J T A). destruct Ix as [<-|[]]. cbn [sample_raw_unit ru_place ud_begin] in E. lia. }
  intros u d I J. apply (H (rd_offset d + 1) u d I J). lia.
Qed.

(** ** Attributes of entries that are given *)

Lemma gives_nth code attrs v i : nth_error attrs i = Some (code, v) ->
  existsb (N.eqb code) (map fst (firstn i attrs ++ skipn (S i) attrs)) = false -> gives code attrs v.
Proof.
  intros E N. exists (firstn i attrs), (skipn (S i) attrs). split.
  - clear N. revert attrs E. induction i as [|i IH]; intros [|a attrs] E; try discriminate; cbn in E |- *.
    + now injection E as ->.
    + f_equal. now apply IH.
  - intros I. assert (X : existsb (N.eqb code) (map fst (firstn i attrs ++ skipn (S i) attrs)) = true).
    { apply existsb_exists. exists code. split; [exact I|apply N.eqb_refl]. } congruence.
Qed.
Lemma lacks_all code attrs : existsb (N.eqb code) (map fst attrs) = false -> lacks code attrs.
Proof.
  intros N I. assert (X : existsb (N.eqb code) (map fst attrs) = true) by (apply existsb_exists; exists code; split; [exact I|apply N.eqb_refl]). congruence.
Qed.
Lemma named_nth rf u (P : N * raw_value -> Prop) attrs code bs i s : nth_error attrs i = Some (code, RwString bs) -> P (code, RwString bs) -> text_of bs = s ->
  Forall (fun a => ~ P a) (skipn (S i) attrs) -> named rf u P attrs (Some s).
Proof.
  intros E Pc <- F. apply (nmd_string rf u P attrs (code, RwString bs)); [|apply sys_inline].
  exists (firstn i attrs), (skipn (S i) attrs). split; [|split; [exact Pc|now apply Forall_forall]].
  clear Pc F. revert attrs E. induction i as [|i IH]; intros [|a attrs] E; try discriminate; cbn in E |- *.
  - now injection E as ->.
  - f_equal. now apply IH.
Qed.
Lemma unnamed rf u (P : N * raw_value -> Prop) attrs : Forall (fun a => ~ P a) attrs -> named rf u P attrs None.
Proof. intros F. apply nmd_none. intros a I. rewrite Forall_forall in F. now apply F. Qed.
Lemma number_nth code attrs v n i : nth_error attrs i = Some (code, v) -> counts v (Z.of_N n) ->
  existsb (N.eqb code) (map fst (firstn i attrs ++ skipn (S i) attrs)) = false -> n <? u64_max = true -> gives_number code attrs n.
Proof. intros E C N L. exists v. split; [now apply (gives_nth _ _ _ i)|]. split; [exact C|now apply N.ltb_lt]. Qed.

(** The first argument is the position of the attribute. *)
Ltac gives_now i := apply (gives_nth _ _ _ i); reflexivity.
Ltac lacks_now := apply lacks_all; reflexivity.
Ltac number_now i := eapply (number_nth _ _ _ _ i); [reflexivity|first [apply (cts_fixed 1 _)|apply cts_unsigned|apply cts_signed]|reflexivity|reflexivity].
Ltac named_now i := eapply (named_nth _ _ _ _ _ _ i);
  [reflexivity|first [reflexivity|left; reflexivity]|reflexivity|cbn [skipn]; repeat (apply Forall_cons; [unfold is_name, is_linkage_name, is_comp_dir; cbn [fst]; intuition discriminate|]); apply Forall_nil].
Ltac unnamed_now := apply unnamed; repeat (apply Forall_cons; [unfold is_name, is_linkage_name, is_comp_dir; cbn [fst]; intuition discriminate|]); apply Forall_nil.
