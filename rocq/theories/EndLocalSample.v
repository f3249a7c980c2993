(** A file for the examples of what is printed inside a function. *)
From Coq Require Import List Arith NArith ZArith Bool String Ascii Lia.
From Verif Require Import Base RangeModel NamespaceModel TypeModel FileModel FilterSpec LocationModel PrintModel PrintSpec NameModel ReadModel ReadSpec
  OptionsModel ItemModel ItemSpec EntrySpec DieModel WholeModel RawModel RawSpec EndSpec EndSample.
Import ListNotations.
Local Open Scope string_scope.
Local Open Scope list_scope.
Local Open Scope N_scope.

(** [inline int twice(int n) { int r; .. }  int outer(int a) { int t; .. { int w; .. twice(..) .. } }], where [a] is in a register and then on the stack,
    [twice] is inlined in line 7, and there is another copy of it.  [twice] is called with [n] in [rdi]; the function that [a] points to is called
    last; the inlined code calls what is at [0x2000]. *)
Definition held_n_die : raw_die := RawDie 0x05 42 [(0x03, RwString (chars "n")); (0x49, RwUnitRef 20)] [].
Definition held_r_die : raw_die := RawDie 0x34 44 [(0x03, RwString (chars "r")); (0x49, RwUnitRef 20)] [].
Definition held_twice_die : raw_die := RawDie 0x2e 40 [(0x03, RwString (chars "twice")); (0x49, RwUnitRef 20); (0x20, RwInline 1)] [held_n_die; held_r_die].
Definition held_a_die : raw_die := RawDie 0x05 62 [(0x03, RwString (chars "a")); (0x49, RwUnitRef 20); (0x02, RwLocations 0)] [].
Definition held_t_die : raw_die := RawDie 0x34 64 [(0x03, RwString (chars "t")); (0x49, RwUnitRef 20); (0x02, RwExpression [] [] [OFrameOffset (-24)])] [].
Definition held_w_die : raw_die := RawDie 0x34 68 [(0x03, RwString (chars "w")); (0x49, RwUnitRef 20); (0x02, RwExpression [] [] [OFrameOffset (-40)])] [].
Definition inlined_n_die : raw_die := RawDie 0x05 72 [(0x31, RwUnitRef 42); (0x02, RwExpression [] [] [ORegister 3])] [].
Definition inlined_r_die : raw_die := RawDie 0x34 74 [(0x31, RwUnitRef 44); (0x02, RwExpression [] [] [OFrameOffset (-28)])] [].
Definition argument_die : raw_die :=
  RawDie 0x49 86 [(0x80, RwUnitRef 42); (0x02, RwExpression [] [] [ORegister 5]); (0x7e, RwExpression [] [] [ORegisterOffset 3 1])] [].
Definition direct_call_die : raw_die :=
  RawDie 0x48 84 [(0x7d, RwAddress 0x1018); (0x7f, RwUnitRef 40); (0x58, RwFileIndex 1); (0x59, RwConst (UnsignedData 8))] [argument_die].
Definition last_call_die : raw_die :=
  RawDie 0x4109 88 [(0x2115, RwFlag true); (0x11, RwAddress 0x1030); (0x31, RwUnitRef 62); (0x2113, RwExpression [] [] [ORegister 5])] [].
Definition inner_call_die : raw_die := RawDie 0x48 90 [(0x81, RwAddress 0x1014); (0x83, RwExpression [] [] [OAddress 0x2000])] [].
Definition inlined_die : raw_die :=
  RawDie 0x1d 70 [(0x31, RwUnitRef 40); (0x11, RwAddress 0x1010); (0x12, RwConst (UnsignedData 8)); (0x58, RwFileIndex 1); (0x59, RwConst (UnsignedData 7))]
    [inlined_n_die; inlined_r_die; inner_call_die].
Definition held_block_die : raw_die := RawDie 0x0b 66 [] [held_w_die; inlined_die; last_call_die].
Definition outer_die : raw_die :=
  RawDie 0x2e 60 [(0x03, RwString (chars "outer")); (0x49, RwUnitRef 20); (0x11, RwAddress 0x1000); (0x12, RwConst (UnsignedData 0x40))]
    [held_a_die; held_t_die; direct_call_die; held_block_die].
Definition other_n_die : raw_die := RawDie 0x05 82 [(0x31, RwUnitRef 42); (0x02, RwExpression [] [] [ORegister 5])] [].
Definition other_die : raw_die := RawDie 0x2e 80 [(0x31, RwUnitRef 40); (0x11, RwAddress 0x1040); (0x12, RwConst (UnsignedData 16))] [other_n_die].
Definition held_list : list (range * list op) := [(mkRange 0x1000 0x1008, [ORegister 5]); (mkRange 0x1008 0x1040, [OFrameOffset (-36)])].
Definition held_raw_unit : raw_unit :=
  mkRawUnit (mkPlace 0 11 100)
    (RawDie 0x11 11
       [(0x03, RwString (chars "h.cpp")); (0x1b, RwString (chars "/src")); (0x13, RwLanguage 0x21); (0x11, RwAddress 0x1000);
        (0x12, RwConst (UnsignedData 0x50))]
       [int_die; held_twice_die; outer_die; other_die])
    (Some (mkRawLines 4 (Some (RwString (chars "/src"))) [RwString (chars "inc")] [(RwString (chars "h.cpp"), 1)] []))
    4 8 [] [] [] (fun _ => None) [] (fun o => if o =? 0 then Some held_list else None).
Definition held_register (r : N) : option string := if r =? 5 then Some "rdi" else None.
Definition held_raw : raw_file := mkRawFile "held" false [] [] [] [held_raw_unit] [] [] held_register None.
Definition held_read : object_input :=
  match read_file held_raw with Some ob => ob | None => mkObjectInput "" false [] [] [] [] (fun _ => EncOther) (fun _ => EndDefault) (fun _ => []) (fun _ => None) None end.
Definition held_arguments : cli := mkCli None None (Some ["function"]) ["all"] [] None [] [].
Definition held_settings : options := Eval vm_compute in
  match parse_options held_arguments as x return match x with Some _ => options | None => True end with Some o => o | None => I end.
Lemma held_settings_from : configured held_arguments held_settings [].
Proof. split; [reflexivity|constructor]. Qed.

Lemma held_well_formed : raw_well_formed held_raw.
Proof.
  split.
  - split; cbn; repeat constructor; discriminate.
  - intros u [<-|[]]. split; [discriminate|]. split; [vm_compute; repeat (constructor; [cbn; intuition discriminate|]); constructor|].
    intros d I. unfold inside_unit. cbn in I; repeat (destruct I as [<-|I]; [split; [discriminate|reflexivity]|]); destruct I.
Qed.
(** No type is written with another. *)
Lemma held_acyclic : raw_acyclic held_raw.
Proof.
  intros u d [<-|[]] J. constructor. intros x e L. exfalso.
  assert (C : forallb (fun d => negb (existsb (N.eqb (rd_tag d)) ([0x01; 0x21; 0x15; 0x1f] ++ map fst modifier_words))) (raw_below held_raw_unit) = true) by reflexivity.
  rewrite forallb_forall in C. specialize (C d J). apply negb_true_iff in C.
  assert (X : ~ In (rd_tag d) ([0x01; 0x21; 0x15; 0x1f] ++ map fst modifier_words)).
  { intros I. assert (Y : existsb (N.eqb (rd_tag d)) ([0x01; 0x21; 0x15; 0x1f] ++ map fst modifier_words) = true) by (apply existsb_exists; exists (rd_tag d); split; [exact I|apply N.eqb_refl]). congruence. }
  apply X. destruct L as [c v T A _ _|p v T]; [exact T|]. rewrite T. cbn. tauto.
Qed.
