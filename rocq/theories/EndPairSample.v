(** Two files for the examples of what a comparison prints, from the values of attributes. *)
From Coq Require Import List Arith NArith ZArith Bool String Ascii Lia.
From Verif Require Import Base RangeModel NamespaceModel TypeModel FileModel FilterSpec LocationModel PrintModel PrintSpec NameModel ReadModel ReadSpec
  OptionsModel ItemModel ItemSpec EntrySpec DieModel WholeModel RawModel RawSpec EndSpec EndSample.
Import ListNotations.
Local Open Scope string_scope.
Local Open Scope list_scope.
Local Open Scope N_scope.

(** The first file has [struct Pair { int x; }; int lost; int kept; int sum() (32 bytes); int past() (16 bytes); typedef int old;]; in the other
    [Pair] also has [y], [kept] is a [Pair], [sum] has 48 bytes, and [extra], [next] and [fresh] are in the place of [lost], [past] and [old]. *)
Section File.
  Variable later : bool.
  Definition earlier_or {A} (x y : A) : A := if later then y else x.
  Definition pair_x : raw_die := RawDie 0x0d 34 [(0x03, RwString (chars "x")); (0x49, RwUnitRef 20); (0x38, RwConst (UnsignedData 0))] [].
  Definition pair_y : raw_die := RawDie 0x0d 38 [(0x03, RwString (chars "y")); (0x49, RwUnitRef 20); (0x38, RwConst (UnsignedData 4))] [].
  Definition pair_die : raw_die :=
    RawDie 0x13 30 [(0x03, RwString (chars "Pair")); (0x0b, RwConst (FixedData 1 (earlier_or 4 8)))] (pair_x :: earlier_or [] [pair_y]).
  Definition gone_die : raw_die :=
    RawDie 0x34 50 [(0x03, RwString (chars (earlier_or "lost" "extra"))); (0x49, RwUnitRef 20); (0x02, RwExpression [] [(GAddress 0x2000, None)] [OAddress 0x2000])] [].
  Definition kept_die : raw_die :=
    RawDie 0x34 60 [(0x03, RwString (chars "kept")); (0x49, RwUnitRef (earlier_or 20 30)); (0x02, RwExpression [] [(GAddress 0x2008, None)] [OAddress 0x2008])] [].
  Definition sum_die : raw_die :=
    RawDie 0x2e 70 [(0x03, RwString (chars "sum")); (0x49, RwUnitRef 20); (0x11, RwAddress 0x1000); (0x12, RwConst (UnsignedData (earlier_or 32 48)))] [].
  Definition past_die : raw_die :=
    RawDie 0x2e 80 [(0x03, RwString (chars (earlier_or "past" "next"))); (0x49, RwUnitRef 20); (0x11, RwAddress 0x1030); (0x12, RwConst (UnsignedData 16))] [].
  Definition old_die : raw_die := RawDie 0x16 90 [(0x03, RwString (chars (earlier_or "old" "fresh"))); (0x49, RwUnitRef 20)] [].
  Definition pair_raw_unit : raw_unit :=
    mkRawUnit (mkPlace 0 11 100)
      (RawDie 0x11 11
         [(0x03, RwString (chars "a.c")); (0x1b, RwString (chars "/src")); (0x13, RwLanguage 0x0c); (0x11, RwAddress 0x1000);
          (0x12, RwConst (UnsignedData 64))]
         [int_die; pair_die; gone_die; kept_die; sum_die; past_die; old_die])
      None 4 8 [] [] [] (fun _ => None) [] (fun _ => None).
  Definition pair_raw : raw_file := mkRawFile (earlier_or "before" "after") false [] [] [] [pair_raw_unit] [] [] (fun _ => None) None.
  Definition pair_read : object_input :=
    match read_file pair_raw with Some ob => ob | None => mkObjectInput "" false [] [] [] [] (fun _ => EncOther) (fun _ => EndDefault) (fun _ => []) (fun _ => None) None end.
End File.

Lemma pair_well_formed later : raw_well_formed (pair_raw later).
Proof.
  split.
  - split; destruct later; cbn; repeat constructor; discriminate.
  - intros u [<-|[]]. split; [discriminate|]. split; [destruct later; vm_compute; repeat (constructor; [cbn; intuition discriminate|]); constructor|].
    intros d I. unfold inside_unit. destruct later; cbn in I; repeat (destruct I as [<-|I]; [split; [discriminate|reflexivity]|]); destruct I.
Qed.

(** Every type of the sample refers to entries before it. *)
Lemma pair_acyclic later : raw_acyclic (pair_raw later).
Proof.
  assert (BACK : forall d c o, In d (raw_below (pair_raw_unit later)) ->
    In (rd_tag d) ([0x01; 0x21; 0x15; 0x1f] ++ map fst modifier_words) -> In (c, RwUnitRef o) (rd_attrs d) -> o < rd_offset d).
  { intros d c o I T A.
    assert (C : forallb (fun d => forallb (fun a => match snd a with RwUnitRef o => o <? rd_offset d | _ => true end) (rd_attrs d))
      (raw_below (pair_raw_unit later)) = true) by (destruct later; reflexivity).
    rewrite forallb_forall in C. specialize (C d I). rewrite forallb_forall in C. specialize (C _ A). now apply N.ltb_lt in C. }
  assert (INFO : forall d c o, In d (raw_below (pair_raw_unit later)) -> ~ In (c, RwInfoRef o) (rd_attrs d)).
  { intros d c o I A. assert (C : forallb (fun d => forallb (fun a => match snd a with RwInfoRef _ => false | _ => true end) (rd_attrs d))
      (raw_below (pair_raw_unit later)) = true) by (destruct later; reflexivity).
    rewrite forallb_forall in C. specialize (C d I). rewrite forallb_forall in C. specialize (C _ A). discriminate. }
  assert (NOFN : forall d, In d (raw_below (pair_raw_unit later)) -> rd_tag d <> 0x15).
  { intros d I. assert (C : forallb (fun d => negb (rd_tag d =? 0x15)) (raw_below (pair_raw_unit later)) = true) by (destruct later; reflexivity).
    rewrite forallb_forall in C. specialize (C d I). now apply negb_true_iff, N.eqb_neq in C. }
  assert (H : forall n u d, In u (rf_units (pair_raw later)) -> In d (raw_below u) -> rd_offset d < n -> ends (pair_raw later) u d).
  { intros n. induction n as [|n IH] using N.peano_ind; intros u d [<-|[]] J L; [lia|].
    constructor. intros x e [c v T A C P|p v T]; [|now destruct (NOFN d J)].
    destruct P as [o x e Ix Je E|x e Ix Je]; [|now destruct (INFO d _ _ J A)].
    apply IH; auto. specialize (BACK d c o J T A). destruct Ix as [<-|[]]. cbn [pair_raw_unit ru_place ud_begin] in E. lia. }
  intros u d I J. apply (H (rd_offset d + 1) u d I J). lia.
Qed.
