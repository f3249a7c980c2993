(** What is printed for types and for comparisons of types (properties C56 to C60). *)
From Coq Require Import List Arith NArith ZArith Bool String Lia.
From Verif Require Import Base BaseProofs NamespaceModel TypeModel TypeSpec TypeProofs LayoutModel
  FileModel DieModel OptionsModel FilterModel FilterSpec DiffModel PrintModel PrintSpec PrintProofs PropertiesPrint
  NameModel RefModel RefSpec RefProofs ItemModel ItemSpec ItemProofs ItemShown.
Import ListNotations.
Local Open Scope string_scope.
Local Open Scope N_scope.

Local Notation compare_docs := (diff_doc text_printer false false).
Local Notation show := (print_doc text_printer false).

(** *** A file for the examples *)

Local Definition off_int : N := 1.
Local Definition sample_types : list type :=
  [mkType 1 (TBase (mkBase (Some "int") 4));
   mkType 2 (TUnion (mkUnion None None 4 false
     [mkMember 0 (Some "i") 1 0 u64_max; mkMember 0 (Some "r") 3 0 u64_max]));
   mkType 3 (TModifier (mkModifier MPointer 1 None u64_max (Some 8)));
   mkType 4 (TStruct (mkStruct (Some (Ns None (Some "ns") KNamespace)) (Some "S") 16 false
     [mkMember 0 (Some "a") 1 0 u64_max; mkMember 0 (Some "flag") 1 37 3; mkMember 0 None 2 64 u64_max]
     [] [mkInherit 5 0]));
   mkType 5 (TStruct (mkStruct None (Some "Base") 0 true [] [] []));
   mkType 6 (TDef (mkDef None (Some "U") 2));
   mkType 7 (TEnum (mkEnum None (Some "E") false u64_max 4));
   mkType 8 (TArray (mkArray 3 2 [2; u64_max] u64_max));
   mkType 9 (TFunction (mkFunctionType [8; 99] u64_max u64_max))].
Local Definition sample_env : type_env := fun off => find (fun t => t_offset t =? off) sample_types.
Local Definition sample_size (t : type) : option N :=
  match byte_size 9 sample_env t with Done s => s | NoFuel => None end.
Local Definition sample_hash : hash := mkHash sample_env sample_size "a.out".
Local Definition the_id (t : type) : nat := N.to_nat (t_offset t).
Local Definition the_names (t : type) : list (option string) :=
  match t_kind t with TFunction _ => [None; Some "x"%string] | _ => [] end.
Local Definition sample_view : view :=
  mkView sample_hash
    (fun t => match type_ref sample_env the_id the_names 9 t with Some v => v | None => VNil end)
    the_id (fun _ => no_source) (fun _ => EncSigned) (fun _ => EndDefault)
    (fun _ => [mkEnumerator (Some "A") (EvSigned (-3)); mkEnumerator (Some "B") (EvUnsigned 7)]).
Local Definition sample_cmp (a b : type) : comparison :=
  match cmp_id false 6 sample_env a sample_env b with Ord c => c | _ => Eq end.
Local Definition sample_options : options :=
  mkOptions (mkPrintOpts true false false false false false false false false) 1 false false
    (mkCategoryOpts false false true false false) (mkFilterOpts None None [] None) SortName
    (mkIgnoreOpts false false false false false false false false false false) [].
Local Definition the (off : N) : type := match sample_env off with Some t => t | None => void_type end.
Local Definition lowest (l1 l2 : list N) (m : list (list N)) (n : nat) : nat := O.

Local Fixpoint shallow (n : nat) (t : type) : bool :=
  match n with
  | O => false
  | S n' => forallb (fun off => match from_offset sample_env off with Some u => shallow n' u | None => true end)
              (refs_list t)
  end.
Local Lemma shallow_bounded n : forall t, shallow n t = true -> bounded n sample_env t.
Proof.
  induction n as [|n IH]; cbn [shallow bounded]; intros t E; [discriminate|]. intros off u R F.
  rewrite forallb_forall in E. specialize (E off (proj1 (refs_list_spec t off) R)). rewrite F in E. auto.
Qed.
Local Lemma sample_known off u : from_offset sample_env off = Some u -> In u (void_type :: sample_types).
Proof.
  unfold from_offset. destruct (_ =? _); intros E; [left; congruence|]. right.
  unfold sample_env in E. apply List.find_some in E. tauto.
Qed.
Local Lemma sample_bounded t : bounded 6 sample_env t.
Proof.
  intros off u _ F. change (bounded 5 sample_env u). apply shallow_bounded.
  assert (C : forallb (shallow 5) (void_type :: sample_types) = true) by reflexivity.
  rewrite forallb_forall in C. apply C. now apply (sample_known off).
Qed.
Local Lemma sample_acyclic : acyclic_view sample_view.
Proof. intros off t _. exact (bounded_acyclic 6 _ _ (sample_bounded t)). Qed.
Local Lemma sample_compares : compares_types (mkSides sample_view sample_view sample_cmp).
Proof.
  intros a b c H. cbn [sd_cmp]. unfold sample_cmp.
  assert (B : bounded 6 sample_env a \/ bounded 6 sample_env b) by (left; apply sample_bounded).
  rewrite (cmp_id_spec 6 _ _ _ _ B). symmetry. exact (proj1 (compares_iff (sample_env, a) (sample_env, b) c 6 B) H).
Qed.
Local Lemma short_small {A} (l : list A) : (List.length l <=? 9)%nat = true -> short l.
Proof. intros E. apply Nat.leb_le in E. unfold short. lia. Qed.
Local Lemma sample_short : short_view sample_view /\ forall off, short_type (the off).
Proof.
  assert (C : forall t, In t (void_type :: sample_types) -> short_type t).
  { intros t IN. cbn [In sample_types] in IN.
    repeat (destruct IN as [<-|IN]; [cbn; repeat split; try apply short_small; try apply Forall_nil; reflexivity|]).
    destruct IN. }
  split; [split|].
  - intros off t E. apply C. now apply (sample_known off).
  - intros t. now apply short_small.
  - intros off. apply C. unfold the. destruct (sample_env off) eqn:E; [|now left]. right.
    unfold sample_env in E. apply List.find_some in E. tauto.
Qed.
Local Definition tab (a b : string) : text := (txt a ++ [9] ++ txt b)%list.
Local Notation sample_sides := (mkSides sample_view sample_view sample_cmp).

(** ** C56: a type compared with itself is silent *)

(** If a type can be printed, then the comparison of it with itself writes the same lines, all
    of them as common to both sides, and reports no difference; however the edit distance
    breaks ties. *)
Theorem C56_silent : forall choose vw cmp o fuel dir t p depth,
  short_view vw -> acyclic_view vw -> compares_types (mkSides vw vw cmp) ->
  short_type t -> (0 < fuel)%nat ->
  print_type o fuel vw dir t = Some p ->
  exists e s,
    diff_type choose o fuel (mkSides vw vw cmp) dir dir t t = Some e /\
    compare_docs e (text_start depth) false =
      (write_marked (with_mark Same (lines depth 0 p)), s, false).
Proof.
  intros choose vw cmp o fuel dir t p n SV AC CT ST PF E.
  destruct (type_self choose vw cmp SV CT AC o fuel dir t p ST PF E) as (e & EE & SE).
  assert (AL : bases_alike t t).
  { unfold bases_alike. destruct (t_kind t); try exact I. lia. }
  destruct (type_reads choose o fuel (mkSides vw vw cmp) dir dir t t e SV SV ST ST AL EE)
    as (p' & q' & EP & _ & SO & _ & U).
  cbn [sd_a] in EP. rewrite E in EP. injection EP as <-.
  destruct (C25_silent e (text_start n) false (SE n)) as (ls & s' & C & _ & _ & L).
  exists e, s'. split; [exact EE|]. rewrite C, (L U). cbn [text_start ts_depth ts_indent].
  now rewrite (SO n 0%nat).
Qed.
Print Assumptions C56_silent.

Example C56_example :
  short_view sample_view /\ acyclic_view sample_view /\ compares_types sample_sides /\
  short_type (the 4) /\
  exists p, print_type sample_options 9 sample_view None (the 4) = Some p /\
    lines 0 0 p =
      [Line 0 (txt "struct ns::S"); Line 1 (txt "size: 16"); Line 1 (txt "inherits: struct Base");
       Line 1 (txt "members:"); Line 2 (tab "0[0]" "<inherit>: struct Base");
       Line 2 (tab "0[4]" "a: int"); Line 2 (tab "4[0.5]" "<padding>");
       Line 2 (tab "4.5[0.3]" "flag: int"); Line 2 (tab "5[3]" "<padding>");
       Line 2 (tab "8[4]" "<anon>: union <anon>"); Line 3 (tab "0[4]" "i: int");
       Line 3 (tab "0[8]" "r: * int"); Line 2 (tab "12[4]" "<padding>"); Blank] /\
    option_map (fun e => snd (compare_docs e (text_start 0) false))
      (diff_type lowest sample_options 9 sample_sides None None (the 4) (the 4)) = Some false.
Proof.
  split; [apply sample_short|]. split; [apply sample_acyclic|]. split; [apply sample_compares|].
  split; [apply sample_short|]. eexists. split; [reflexivity|]. split; vm_compute; reflexivity.
Qed.

(** ** C57: both sides of a comparison of types can be read *)

(** The lines of a comparison that are not marked as new are those printed for the old type,
    except for added headings, and correspondingly for the new type; and if no difference is
    reported, then the same is printed for the two types. *)
Theorem C57_both_sides : forall choose o fuel sd da db a b e depth,
  short_view (sd_a sd) -> short_view (sd_b sd) -> short_type a -> short_type b -> bases_alike a b ->
  diff_type choose o fuel sd da db a b = Some e ->
  exists pa pb ls s flag,
    print_type o fuel (sd_a sd) da a = Some pa /\ print_type o fuel (sd_b sd) db b = Some pb /\
    compare_docs e (text_start depth) false = (write_marked ls, s, flag) /\
    plus_headings (lines depth 0 pa) (old_lines ls) /\
    plus_headings (lines depth 0 pb) (new_lines ls) /\
    (flag = false -> lines depth 0 pa = lines depth 0 pb).
Proof.
  intros choose o fuel sd da db a b e n SA SB TA TB AL E.
  destruct (type_reads choose o fuel sd da db a b e SA SB TA TB AL E) as (p & q & EP & EQ & SO & SN & U).
  destruct (diff_text_unhidden e U (text_start n) false) as (s' & f' & ED & _).
  destruct (sides_headings e U n 0) as [HO HN]. rewrite (SO n 0%nat) in HO. rewrite (SN n 0%nat) in HN.
  exists p, q, (diff_lines n 0 e), s', f'. do 3 (split; [assumption|]). do 2 (split; [assumption|]). intros ->.
  rewrite <- (SO n 0%nat), <- (SN n 0%nat). apply unchanged_sides; [exact (type_unignored _ _ _ _ _ _ _ _ _ E)|].
  destruct (changed n e) eqn:C; [|reflexivity]. exfalso.
  pose proof (flag_complete e U (text_start n) false C) as F. rewrite ED in F. discriminate.
Qed.
Print Assumptions C57_both_sides.

Local Definition two_bases : type :=
  mkType 44 (TStruct (mkStruct (Some (Ns None (Some "ns") KNamespace)) (Some "S") 16 false
    [mkMember 0 (Some "a") 3 0 u64_max] [] [mkInherit 5 0; mkInherit 4 0])).
Local Definition no_bases : type :=
  mkType 45 (TStruct (mkStruct (Some (Ns None (Some "ns") KNamespace)) (Some "S") 16 false
    [mkMember 0 (Some "a") 3 0 u64_max] [] [])).
Local Definition diff1 : ddoc := Eval vm_compute in
  match diff_type lowest sample_options 9 sample_sides None None two_bases no_bases with Some e => e | None => DNil end.
Example C57_example :
  bases_alike two_bases no_bases /\
  exists e ls,
    diff_type lowest sample_options 9 sample_sides None None two_bases no_bases = Some e /\
    fst (fst (compare_docs e (text_start 0) false)) = write_marked ls /\
    ls = [(Same, Line 0 (txt "struct ns::S")); (Same, Line 1 (txt "size: 16"));
          (Same, Line 1 (txt "inherits:")); (Old, Line 2 (txt "struct Base")); (Old, Line 2 (txt "struct ns::S"));
          (Same, Line 1 (txt "members:")); (Old, Line 2 (tab "0[0]" "<inherit>: struct Base"));
          (Same, Line 2 (tab "0[8]" "a: * int")); (New, Line 2 (tab "8[8]" "<padding>"));
          (Old, Line 2 (tab "0[16]" "<inherit>: struct ns::S")); (Same, Blank)].
Proof.
  split; [cbn; split; lia|]. exists diff1. eexists. split; [vm_compute; reflexivity|]. split; [|reflexivity].
  vm_compute. reflexivity.
Qed.
Local Definition diff2 : ddoc := Eval vm_compute in
  match diff_type lowest sample_options 9 sample_sides None None (the 4) two_bases with Some e => e | None => DNil end.
Local Definition print2 : pdoc := Eval vm_compute in
  match print_type sample_options 9 sample_view None (the 4) with Some e => e | None => PNil end.

(** When one of the types has one base class and the other one several, the one base class is
    printed on the line of the label, but shown below it in the comparison. *)
Theorem C57_bases_refuted : exists choose o fuel sd a b e pa ls s flag x,
  diff_type choose o fuel sd None None a b = Some e /\
  print_type o fuel (sd_a sd) None a = Some pa /\
  compare_docs e (text_start 0) false = (write_marked ls, s, flag) /\
  In x (lines 0 0 pa) /\ ~ In x (old_lines ls).
Proof.
  exists lowest, sample_options, 9%nat, sample_sides, (the 4), two_bases.
  exists diff2, print2, (diff_lines 0 0 diff2). eexists. eexists. exists (Line 1 (txt "inherits: struct Base")).
  split; [vm_compute; reflexivity|]. split; [vm_compute; reflexivity|]. split; [vm_compute; reflexivity|]. split; [vm_compute; tauto|].
  vm_compute. intuition discriminate.
Qed.
Print Assumptions C57_bases_refuted.

(** ** C58: what is printed for a type *)

Theorem C58_printed : forall o fuel vw dir t p depth,
  print_type o fuel vw dir t = Some p ->
  exists ls, fst (show p (text_start depth)) = write_lines ls /\ type_shown o vw dir t ls.
Proof.
  intros o fuel vw dir t p n E. exists (lines n 0 p). split.
  - now rewrite print_doc_text.
  - now apply (type_lines o fuel).
Qed.
Print Assumptions C58_printed.

Example C58_example :
  exists p, print_type sample_options 9 sample_view (Some "/src") (the 6) = Some p /\
    lines 0 0 p =
      [Line 0 (txt "type U = union <anon>"); Line 1 (txt "size: 4"); Line 1 (txt "members:");
       Line 2 (tab "0[4]" "i: int"); Line 2 (tab "0[8]" "r: * int"); Blank] /\
  exists q, print_type sample_options 9 sample_view (Some "/src") (the 7) = Some q /\
    lines 0 0 q =
      [Line 0 (txt "enum E"); Line 1 (txt "size: 4"); Line 1 (txt "enumerators:"); Line 2 (txt "A(-3)");
       Line 2 (txt "B(7)"); Blank].
Proof. eexists. split; [reflexivity|]. split; [reflexivity|]. eexists. split; reflexivity. Qed.

(** ** C59: when a type can be printed *)

(** A type is printed completely exactly if the types whose members are shown inside each
    other do not nest forever. *)
Theorem C59_terminates : forall o vw dir t,
  printable t ->
  ((exists fuel p, print_type o fuel vw dir t = Some p) <->
   forall u, shows_members vw t u -> nests vw u).
Proof. intros. now apply type_prints. Qed.
Print Assumptions C59_terminates.

(** The depth that is available then makes no difference. *)
Theorem C59_depth : forall o fuel fuel' vw dir t p,
  (fuel <= fuel')%nat -> print_type o fuel vw dir t = Some p -> print_type o fuel' vw dir t = Some p.
Proof. intros. eapply type_print_le; eauto. Qed.
Print Assumptions C59_depth.

(** Two types of the same kind that can be printed can be compared. *)
Theorem C59_compares : forall choose sd o fuel da db a b p q,
  short_view (sd_a sd) -> short_view (sd_b sd) -> short_type a -> short_type b -> (0 < fuel)%nat ->
  kind_discriminant (t_kind a) = kind_discriminant (t_kind b) ->
  print_type o fuel (sd_a sd) da a = Some p -> print_type o fuel (sd_b sd) db b = Some q ->
  exists e, diff_type choose o fuel sd da db a b = Some e.
Proof. intros. eapply type_defined; eauto. Qed.
Print Assumptions C59_compares.

(** An unnamed type with an unnamed member of its own type is printed without end. *)
Theorem C59_infinite_refuted : exists vw t,
  printable t /\ vw_find vw 1 = Some t /\ forall o fuel dir, print_type o fuel vw dir t = None.
Proof.
  set (t := mkType 1 (TUnion (mkUnion None None 8 false [mkMember 0 None 1 0 u64_max]))).
  set (vw := mkView (mkHash (fun off => if off =? 1 then Some t else None) (fun _ => Some 8) "a.out"%string) (fun _ => VNil)
    the_id (fun _ => no_source) (fun _ => EncOther) (fun _ => EndDefault) (fun _ => [])).
  exists vw, t. split; [exact I|]. split; [reflexivity|]. intros o fuel dir.
  assert (H : print_members fuel vw (Some t) = None).
  { induction fuel as [|fuel IH]; [reflexivity|]. rewrite print_members_S.
    change (all_printed (print_member (print_members fuel vw) vw) [mkMember 0 None 1 0 u64_max] = None).
    cbn [all_printed]. unfold print_member. change (inline_type vw (mkMember 0 None 1 0 u64_max)) with (Some t).
    now rewrite IH. }
  unfold print_type, print_type_body. change (t_kind t) with (TUnion (mkUnion None None 8 false [mkMember 0 None 1 0 u64_max])).
  cbn iota. now rewrite H.
Qed.
Print Assumptions C59_infinite_refuted.

Example C59_example :
  printable (the 4) /\ shows_members sample_view (the 4) (the 4) /\ nests sample_view (the 4) /\
  (exists m, listed_member (the 4) m /\ inline_member sample_env m).
Proof.
  assert (S : shows_members sample_view (the 4) (the 4)) by (now eapply sm_struct).
  split; [exact I|]. split; [exact S|]. split.
  - apply (proj1 (C59_terminates sample_options sample_view None (the 4) I)); [|exact S].
    exists 9%nat. eexists. reflexivity.
  - exists (mkMember 0 None 2 64 u64_max). split; [|now left]. eapply lm_struct; [reflexivity|]. cbn. tauto.
Qed.

(** ** C60: how types are written *)

(** What is written for a type says what the type is. *)
Theorem C60_written : forall env type_id names fuel t v,
  type_ref env type_id names fuel t = Some v -> spelled env names t (text_value v).
Proof. intros. eapply ref_spelled; eauto. Qed.
Print Assumptions C60_written.

(** Links lead to types with entries that the type is built from. *)
Theorem C60_links : forall env type_id names fuel t v id s,
  type_ref env type_id names fuel (Some t) = Some v -> In (id, s) (links v) ->
  exists u, part env t u /\ has_entry u /\ id = type_id u.
Proof. intros. eapply ref_targets; eauto. Qed.
Print Assumptions C60_links.

(** Writing a type ends if it is not built from itself. *)
Theorem C60_terminates : forall env type_id names t,
  acyclic env t ->
  exists n, forall fuel, (n <= fuel)%nat -> exists v, type_ref env type_id names fuel (Some t) = Some v.
Proof.
  intros env id names t A. apply acyclic_bounded in A as [n B]. exists (S n). intros fuel L.
  apply (ref_some env id names n); [exact B|lia].
Qed.
Print Assumptions C60_terminates.

Example C60_example :
  acyclic sample_env (the 9) /\
  exists v, type_ref sample_env the_id the_names 9 (Some (the 9)) = Some v /\
    text_value v = txt "([* int; 2, ??], x: <invalid-type>)" /\ links v = [(1%nat, txt "int")] /\
    part sample_env (the 9) (the 1) /\ has_entry (the 1).
Proof.
  split; [exact (bounded_acyclic 6 _ _ (sample_bounded _))|]. eexists. split; [reflexivity|].
  split; [reflexivity|]. split; [reflexivity|]. split; [|exact I].
  eapply part_step; [apply ir_param; left; reflexivity|reflexivity|].
  eapply part_step; [apply ir_array|reflexivity|].
  eapply part_step; [apply ir_modified|reflexivity|]. apply part_self.
Qed.

(** Types that are different can be written the same ... *)
Theorem C60_ambiguous_refuted : exists env id names a b v,
  (forall fuel, (1 < fuel)%nat ->
     option_map text_value (type_ref env id names fuel (Some a)) = Some v /\
     option_map text_value (type_ref env id names fuel (Some b)) = Some v) /\
  compares false (env, a) (env, b) Lt.
Proof.
  exists sample_env, the_id, the_names.
  exists (mkType 20 (TModifier (mkModifier MReference 1 None u64_max (Some 8)))),
         (mkType 21 (TModifier (mkModifier MRvalueReference 1 None u64_max (Some 8)))), (txt "& int").
  split.
  - intros fuel L. destruct fuel as [|[|fuel]]; try lia. split; reflexivity.
  - exists 2%nat. intros fuel L. destruct fuel as [|[|fuel]]; try lia. reflexivity.
Qed.
Print Assumptions C60_ambiguous_refuted.

(** ... and types with the same identity differently. *)
Theorem C60_identity_refuted : exists env id names a b v w,
  (forall fuel, (1 < fuel)%nat ->
     option_map text_value (type_ref env id names fuel (Some a)) = Some v /\
     option_map text_value (type_ref env id names fuel (Some b)) = Some w) /\
  v <> w /\ compares false (env, a) (env, b) Eq.
Proof.
  exists sample_env, the_id, the_names.
  exists (mkType 20 (TArray (mkArray 1 2 [2; 3] u64_max))),
         (mkType 21 (TArray (mkArray 1 2 [2; 4] u64_max))), (txt "[int; 2, 3]"), (txt "[int; 2, 4]").
  split; [|split; [discriminate|]].
  - intros fuel L. destruct fuel as [|[|fuel]]; try lia. split; reflexivity.
  - exists 2%nat. intros fuel L. destruct fuel as [|[|fuel]]; try lia. reflexivity.
Qed.
Print Assumptions C60_identity_refuted.

(** A type that is built from itself is written without end. *)
Theorem C60_cycle_refuted : exists env t,
  from_offset env 1 = Some t /\ forall id names fuel, type_ref env id names fuel (Some t) = None.
Proof.
  set (t := mkType 1 (TModifier (mkModifier MPointer 1 None u64_max (Some 8)))).
  exists (fun off => if off =? 1 then Some t else None), t. split; [reflexivity|]. intros id names fuel.
  induction fuel as [|fuel IH]; [reflexivity|]. cbn [type_ref t_kind t mo_name mo_ty].
  change (from_offset (fun off : N => if off =? 1 then Some t else None) 1) with (Some t). now rewrite IH.
Qed.
Print Assumptions C60_cycle_refuted.
