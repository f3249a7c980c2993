(** Two files for the examples of functions and variables whose entries refer to others. *)
From Coq Require Import List Arith NArith ZArith Bool String Ascii Lia.
From Verif Require Import Base RangeModel NamespaceModel TypeModel FileModel FilterSpec LocationModel PrintModel PrintSpec NameModel ReadModel ReadSpec
  OptionsModel ItemModel ItemSpec EntrySpec DieModel WholeModel RawModel RawSpec EndSpec EndSample.
Import ListNotations.
Local Open Scope string_scope.
Local Open Scope list_scope.
Local Open Scope N_scope.

(** [struct Stack { static int count; int push(int); }; int Stack::count; int Stack::push(int v) { .. }  inline int twice(int n) { .. }], where the code
    of [push] is at two places, and there is a copy of [twice] that is not inlined.  In the second file, [push] has more code. *)
Section File.
  Variable later : bool.
  Definition count_die : raw_die := RawDie 0x0d 40 [(0x03, RwString (chars "count")); (0x49, RwUnitRef 20); (0x3c, RwFlag true)] [].
  Definition push_given_die : raw_die := RawDie 0x05 52 [(0x49, RwUnitRef 20)] [].
  Definition push_die : raw_die :=
    RawDie 0x2e 50 [(0x03, RwString (chars "push")); (0x6e, RwString (chars "_ZN5Stack4pushEi")); (0x49, RwUnitRef 20); (0x3c, RwFlag true)] [push_given_die].
  Definition stack_die : raw_die := RawDie 0x13 30 [(0x03, RwString (chars "Stack")); (0x0b, RwConst (FixedData 1 1))] [count_die; push_die].
  Definition counter_die : raw_die :=
    RawDie 0x34 60 [(0x47, RwUnitRef 40); (0x6e, RwString (chars "_ZN5Stack5countE")); (0x02, RwExpression [] [(GAddress 0x2000, None)] [OAddress 0x2000])] [].
  Definition pushed_die : raw_die := RawDie 0x05 72 [(0x03, RwString (chars "v")); (0x49, RwUnitRef 20)] [].
  Definition pusher_die : raw_die := RawDie 0x2e 70 [(0x47, RwUnitRef 50); (0x55, RwRanges 0)] [pushed_die].
  Definition n_given_die : raw_die := RawDie 0x05 82 [(0x03, RwString (chars "n")); (0x49, RwUnitRef 20)] [].
  Definition twice_die : raw_die := RawDie 0x2e 80 [(0x03, RwString (chars "twice")); (0x49, RwUnitRef 20); (0x20, RwInline 1)] [n_given_die].
  Definition copied_die : raw_die := RawDie 0x05 92 [(0x31, RwUnitRef 82)] [].
  Definition copy_die : raw_die := RawDie 0x2e 90 [(0x31, RwUnitRef 80); (0x11, RwAddress 0x1040); (0x12, RwConst (UnsignedData 16))] [copied_die].
  Definition push_ranges : list (N * N) := [(0x1000, if later then 0x1028 else 0x1020); (0x1030, 0x1038)].
  Definition refer_raw_unit : raw_unit :=
    mkRawUnit (mkPlace 0 11 100)
      (RawDie 0x11 11
         [(0x03, RwString (chars "s.cpp")); (0x1b, RwString (chars "/src")); (0x13, RwLanguage 0x21); (0x11, RwAddress 0x1000);
          (0x12, RwConst (UnsignedData 0x50))]
         [int_die; stack_die; counter_die; pusher_die; twice_die; copy_die])
      None 4 8 [] [] [] (fun o => if o =? 0 then Some push_ranges else None) [] (fun _ => None).
  Definition refer_raw : raw_file := mkRawFile (if later then "after" else "before") false [] [] [] [refer_raw_unit] [] [] (fun _ => None) None.
  Definition refer_read : object_input :=
    match read_file refer_raw with Some ob => ob | None => mkObjectInput "" false [] [] [] [] (fun _ => EncOther) (fun _ => EndDefault) (fun _ => []) (fun _ => None) None end.
End File.

Lemma refer_well_formed later : raw_well_formed (refer_raw later).
Proof.
  split.
  - split; destruct later; cbn; repeat constructor; discriminate.
  - intros u [<-|[]]. split; [discriminate|]. split; [destruct later; vm_compute; repeat (constructor; [cbn; intuition discriminate|]); constructor|].
    intros d I. unfold inside_unit. cbn in I; repeat (destruct I as [<-|I]; [split; [discriminate|reflexivity]|]); destruct I.
Qed.
(** No type is written with another. *)
Lemma refer_acyclic later : raw_acyclic (refer_raw later).
Proof.
  intros u d [<-|[]] J. constructor. intros x e L. exfalso.
  assert (C : forallb (fun d => negb (existsb (N.eqb (rd_tag d)) ([0x01; 0x21; 0x15; 0x1f] ++ map fst modifier_words))) (raw_below (refer_raw_unit later)) = true) by reflexivity.
  rewrite forallb_forall in C. specialize (C d J). apply negb_true_iff in C.
  assert (X : ~ In (rd_tag d) ([0x01; 0x21; 0x15; 0x1f] ++ map fst modifier_words)).
  { intros I. assert (Y : existsb (N.eqb (rd_tag d)) ([0x01; 0x21; 0x15; 0x1f] ++ map fst modifier_words) = true) by (apply existsb_exists; exists (rd_tag d); split; [exact I|apply N.eqb_refl]). congruence. }
  apply X. destruct L as [c v T A _ _|p v T]; [exact T|]. rewrite T. cbn. tauto.
Qed.
