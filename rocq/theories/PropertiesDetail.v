(** Properties C70-C74: the details of a function. *)
From Coq Require Import List Arith NArith ZArith Bool String Lia.
From Verif Require Import Base BaseProofs RangeModel NamespaceModel TypeModel LocationModel DieModel DieSpec
  DieProofs DescribeProofs FileModel EntryModel DetailModel DetailSpec DetailProofs DetailShown DetailMore.
Import ListNotations.
Local Open Scope N_scope.

(** ** A function and its abstract instance

    The function at 100 is a concrete instance of the one at 200.  It has one parameter and one variable of
    that one, one variable of its own in a block, and a call of the function at 300 that was
    inlined, inside of which is another one. *)
Definition sample_reading : reading := mkReading 8 (fun _ => None).
Definition sample_nested : die :=
  Die TagInlined 150 [AAbstractOrigin (Some 300); ARanges (Some [(32, 36); (40, 40); (48, 52)])] [].
Definition sample_inlined : die :=
  Die TagInlined 140 [AAbstractOrigin (Some 300); ALowPc (Some 16); AHighPcSize 24; ACallLine (Some 7)]
    [ Die TagParameter 141 [AAbstractOrigin (Some 310); ALocation (PExpression [] [ORegister 5])] [];
      sample_nested ].
Definition sample_call : die :=
  Die (TagCallSite false) 160 [ACallReturnPc (Some 77); ACallOrigin (Some 300); ACallTail]
    [ Die TagCallParameter 161 [AAbstractOrigin (Some 310); ALocation (PExpression [] [ORegister 4])] [];
      Die (TagOther 0) 162 [] [] ].
Definition sample_indirect : die :=
  Die (TagCallSite true) 170 [ALowPc (Some 80); ACallOrigin (Some 120); ACallTarget true (Some [ORegister 1])] [].
Definition sample_concrete : die :=
  Die TagSubprogram 100 [AAbstractOrigin (Some 200); ALowPc (Some 0); AHighPcSize 99]
    [ Die TagParameter 110 [AAbstractOrigin (Some 210); ALocation (PExpression [] [ORegister 3])] [];
      Die TagVariable 120 [AAbstractOrigin (Some 220); ALocation (PExpression [] [OAddress 4096; OPiece 32 None])] [];
      Die TagLexicalBlock 130 []
        [ Die TagVariable 131 [AName (Some "own"%string); AType (Some 91); ADeclLine (Some 9)] [];
          sample_inlined;
          Die TagParameter 139 [AName (Some "stray"%string)] [] ];
      sample_call; sample_indirect ].
Definition sample_abstract : die :=
  Die TagSubprogram 200 [AName (Some "f"%string); AInline (Some true)]
    [ Die TagParameter 210 [AName (Some "x"%string); AType (Some 90)] [];
      Die TagParameter 212 [AName (Some "unused"%string); AType (Some 90)] [];
      Die TagLexicalBlock 218 []
        [ Die TagVariable 220 [AName (Some "y"%string); AType (Some 90); ADeclLine (Some 4)] [] ] ].
Definition sample_callee : die :=
  Die TagSubprogram 300 [AName (Some "g"%string)]
    [ Die TagParameter 310 [AName (Some "z"%string); AType (Some 92)] [] ].
Definition sample_tops : list die := [sample_concrete; sample_abstract; sample_callee].
Definition space_of (tops : list die) : space :=
  fun off =>
    match find (fun d => die_offset d =? off) (flat_map entries tops) with
    | Some d => Some (sample_reading, d)
    | None => None
    end.
Definition sample_space := space_of sample_tops.
Definition sample_g : func := mkFunc 300 None (Some "g"%string) None None 0 0 [] false false.
Definition sample_offsets : offsets :=
  mkOffsets (fun o => if o =? 300 then Some sample_g else None) (fun _ => None).

Lemma space_of_proper tops :
  forallb (fun d => forallb (fun x => negb (fst x =? u64_max) && (snd x <? two64)) (fixed_at (sample_reading, d)))
    (flat_map entries tops) = true ->
  all_proper (space_of tops).
Proof.
  intros H o rd d S. unfold space_of in S.
  destruct (find (fun d => die_offset d =? o) (flat_map entries tops)) as [d'|] eqn:F; [|discriminate].
  injection S as <- <-. apply find_some in F. destruct F as [F _].
  intros e a n I J. apply in_map_iff in I. destruct I as (x & <- & I).
  assert (K : In x (flat_map entries tops)).
  { apply in_flat_map in F. destruct F as (t & Ft & F). apply in_flat_map. exists t. split; [exact Ft|].
    now apply (entries_trans t d'). }
  rewrite forallb_forall in H. specialize (H x K). rewrite forallb_forall in H. specialize (H _ J).
  cbn [fst snd] in H. apply andb_prop in H. destruct H as [A B].
  apply negb_true_iff, N.eqb_neq in A. apply N.ltb_lt in B. now split.
Qed.
Example sample_proper : all_proper sample_space.
Proof. apply space_of_proper. vm_compute. reflexivity. Qed.

(** ** C70: parameters and local variables *)

(** A function has one parameter for each entry that refers to no other of its parameters.  The
    entries of the abstract instance come first. *)
Theorem C70_parameters sp h off rd d :
  sp off = Some (rd, d) -> off <> u64_max ->
  fd_parameters (get_function_details sp h off) =
  map parameter_of (groups [] (parameter_entries sp rd (die_attrs d) (die_children d))).
Proof. apply whole_parameters. Qed.
Print Assumptions C70_parameters.

(** The same for local variables, which may be inside blocks. *)
Theorem C70_variables sp h off rd d :
  sp off = Some (rd, d) -> off <> u64_max -> all_proper sp ->
  fd_variables (get_function_details sp h off) =
  map variable_of (groups [] (variable_entries sp rd (die_attrs d) (die_children d))).
Proof. intros S NE P. apply (whole sp h off rd d S NE P). Qed.
Print Assumptions C70_variables.

(** Every entry is in one of the groups, as long as no two have one offset. *)
Theorem C70_every_entry l : NoDup (map e_offset l) ->
  forall e, In e l -> exists g, In g (groups [] l) /\ In e (fst g :: snd g).
Proof.
  intros D. enough (G : forall seen, (forall o, In o seen -> ~ In o (map e_offset l)) ->
    forall e, In e l ->
      (exists o, In o seen /\ refers_to o e = true) \/
      exists g, In g (groups seen l) /\ In e (fst g :: snd g)).
  { intros e I. destruct (G [] (fun o F => match F with end) e I) as [(o & [] & _)|H]. exact H. }
  induction l as [|x l IH]; intros seen F e I; [contradiction|]. cbn [map] in D. inversion D as [|? ? NI D']; subst.
  cbn [groups]. destruct (existsb (fun o => refers_to o x) seen) eqn:R.
  - destruct I as [<-|I].
    + left. apply existsb_exists in R. exact R.
    + apply (IH D' seen); [|exact I]. intros o Io J. apply (F o Io). now right.
  - destruct I as [<-|I].
    + right. eexists. split; [now left|]. now left.
    + assert (NS : existsb (N.eqb (e_offset x)) seen = false).
      { destruct (existsb (N.eqb (e_offset x)) seen) eqn:E; [|reflexivity]. apply existsb_exists in E. destruct E as (o & Io & E).
        apply N.eqb_eq in E. exfalso. apply (F o Io). left. exact E. }
      rewrite NS. destruct (IH D' (e_offset x :: seen)) with (e := e) as [(o & Io & E)|(g & Ig & J)]; [|exact I| |].
      * intros o [<-|Io] J; [contradiction|]. apply (F o Io). now right.
      * destruct Io as [<-|Io]; [|left; now exists o].
        right. eexists. split; [now left|]. right. apply filter_In. now split.
      * right. exists g. split; [now right|exact J].
Qed.
Print Assumptions C70_every_entry.

Example C70_example :
  fd_parameters (get_function_details sample_space sample_offsets 100) =
    [ mkParameter 210 (Some "x"%string) 90 [(mkRange 0 u64_max, mkPiece 0 u64_max (LRegister 3) 0 false)];
      mkParameter 212 (Some "unused"%string) 90 [] ] /\
  fd_variables (get_function_details sample_space sample_offsets 100) =
    [ mkVariableAt 220 (Some "y"%string) 90 (mkSource None None 4 0) 4096 4
        [(mkRange 0 u64_max, mkPiece 0 32 (LAddress 4096) 0 false)];
      mkVariableAt 131 (Some "own"%string) 91 (mkSource None None 9 0) u64_max u64_max [] ].
Proof. split; vm_compute; reflexivity. Qed.
Example C70_example_groups :
  map (fun g => (e_offset (fst g), map e_offset (snd g)))
    (groups [] (variable_entries sample_space sample_reading (die_attrs sample_concrete) (die_children sample_concrete)))
  = [(220, [120]); (131, [])].
Proof. vm_compute. reflexivity. Qed.

(** Only the abstract instance itself is looked at, and not what it may in turn be an instance of. *)
Definition chain_tops : list die :=
  [ Die TagSubprogram 100 [AAbstractOrigin (Some 200)] [ Die TagParameter 110 [AAbstractOrigin (Some 210)] [] ];
    Die TagSubprogram 200 [AAbstractOrigin (Some 300)] [ Die TagParameter 210 [AAbstractOrigin (Some 310)] [] ];
    sample_callee ].
Theorem C70_indirect_name_refuted :
  exists sp off rd d p, sp off = Some (rd, d) /\ off <> u64_max /\
    fd_parameters (get_function_details sp sample_offsets off) = [p] /\ pa_name p = None /\
    exists rd' e, sp 310 = Some (rd', e) /\ given_name (die_attrs e) = Some "z"%string /\
      exists rd'' m, sp (pa_offset p) = Some (rd'', m) /\ given_origin (die_attrs m) = Some 310.
Proof.
  exists (space_of chain_tops), 100, sample_reading,
    (Die TagSubprogram 100 [AAbstractOrigin (Some 200)] [ Die TagParameter 110 [AAbstractOrigin (Some 210)] [] ]),
    (mkParameter 210 None type_offset_none []).
  split; [vm_compute; reflexivity|]. split; [discriminate|]. split; [vm_compute; reflexivity|].
  split; [reflexivity|]. exists sample_reading, (Die TagParameter 310 [AName (Some "z"%string); AType (Some 92)] []).
  split; [vm_compute; reflexivity|]. split; [reflexivity|].
  exists sample_reading, (Die TagParameter 210 [AAbstractOrigin (Some 310)] []). split; vm_compute; reflexivity.
Qed.
Print Assumptions C70_indirect_name_refuted.

(** ** C71: inlined functions and calls *)

(** The functions inlined into a function are those with an entry in it or in a block in it, in that order, and
    so on inside them. *)
Theorem C71_inlined sp h off rd d :
  sp off = Some (rd, d) -> off <> u64_max -> all_proper sp -> tree_64 d ->
  Forall2 (inlines sp h rd) (flat_map (through_blocks is_inlined) (die_children d))
    (fd_inlined (get_function_details sp h off)).
Proof.
  intros S NE P T. destruct (whole sp h off rd d S NE P) as (_ & _ & -> & _).
  apply forall2_map. intros e I. apply (item_inlined_ok sp h rd P _ e (Nat.lt_succ_diag_r _)).
  - apply through_all_tag in I. destruct (die_tag e); discriminate || reflexivity.
  - apply (good_inside rd d); [|now apply in_children_through in I]. split; [exact T|]. now apply (P off).
Qed.
Print Assumptions C71_inlined.

(** So are the calls; what is called is what the last usable reference leads to. *)
Theorem C71_calls sp h off rd d :
  sp off = Some (rd, d) -> off <> u64_max ->
  Forall2 (calls sp h rd) (flat_map (through_blocks is_call) (die_children d))
    (fd_calls (get_function_details sp h off)).
Proof. apply whole_calls. Qed.
Print Assumptions C71_calls.

(** There is just one way in which an entry makes a call. *)
Theorem C71_calls_determined sp h rd d c1 c2 : calls sp h rd d c1 -> calls sp h rd d c2 -> c1 = c2.
Proof.
  assert (LT : forall o r1 r2, leads_to sp h o r1 -> leads_to sp h o r2 -> r1 = r2).
  { intros o r1 r2 A B. apply call_origin_leads in A, B. rewrite A in B. now injection B. }
  assert (AT : forall a r1 r2, attr_leads_to sp h a r1 -> attr_leads_to sp h a r2 -> r1 = r2).
  { intros a r1 r2 (o1 & A1 & B1) (o2 & A2 & B2).
    assert (o1 = o2) as <- by (destruct A1 as [->| ->], A2 as [E|E]; congruence). now apply (LT o1). }
  assert (LS : forall l x1 x2, last_such (attr_leads_to sp h) l x1 -> last_such (attr_leads_to sp h) l x2 -> x1 = x2).
  { induction l as [|a l IH] using rev_ind; intros x1 x2 A B.
    - inversion A as [|b1 ? ? ? ? ? E1]; inversion B as [|b2 ? ? ? ? ? E2]; subst; try reflexivity;
        try (destruct b1; discriminate); destruct b2; discriminate.
    - assert (SNOC : forall x, last_such (attr_leads_to sp h) (l ++ [a]) x ->
        (exists r, attr_leads_to sp h a r /\ x = Some r) \/
        ((forall r, ~ attr_leads_to sp h a r) /\ last_such (attr_leads_to sp h) l x)).
      { intros x H. inversion H as [l' N E1 E2|bf y af r R N E1 E2]; subst.
        - right. split; [intros r; apply N, in_or_app; right; now left|]. constructor.
          intros a' b' I. apply N, in_or_app. now left.
        - destruct af as [|z af _] using rev_ind.
          + apply app_inj_tail in E1. destruct E1 as [<- <-]. left. now exists r.
          + change (bf ++ y :: af ++ [z]) with (bf ++ (y :: af) ++ [z]) in E1. rewrite app_assoc in E1.
            apply app_inj_tail in E1. destruct E1 as [<- <-]. right. split.
            * intros r'. apply N, in_or_app. right. now left.
            * apply last_one; [exact R|]. intros a' b' I. apply N, in_or_app. now left. }
      destruct (SNOC _ A) as [(r1 & A1 & ->)|(N1 & A1)], (SNOC _ B) as [(r2 & B1 & ->)|(N2 & B1)].
      + f_equal. now apply (AT a).
      + exfalso. now apply (N2 r1).
      + exfalso. now apply (N1 r2).
      + now apply IH. }
  intros A B. destruct A as [gnu off attrs children o1 H1]. inversion B as [g2 f2 a2 c2' o2 H2]; subst.
  now rewrite (LS _ _ _ H1 H2).
Qed.
Print Assumptions C71_calls_determined.

Example C71_example :
  map (fun x => (if_origin x, if_size x, if_ranges x, map pa_name (if_parameters x),
                 map (fun y => (if_origin y, if_size y, if_ranges y)) (if_inlined x)))
    (fd_inlined (get_function_details sample_space sample_offsets 100)) =
  [(300, 24, [mkRange 16 40], [Some "z"%string], [(300, 8, [mkRange 32 36; mkRange 48 52])])].
Proof. vm_compute. reflexivity. Qed.
Example C71_example_hypotheses :
  sample_space 100 = Some (sample_reading, sample_concrete) /\ tree_64 sample_concrete /\
  flat_map (through_blocks is_inlined) (die_children sample_concrete) = [sample_inlined] /\
  flat_map (through_blocks is_call) (die_children sample_concrete) = [sample_call; sample_indirect].
Proof.
  split; [vm_compute; reflexivity|]. split; [|split; reflexivity].
  intros e I. vm_compute in I. repeat (destruct I as [<-|I]); [..|contradiction I];
    repeat constructor; vm_compute; repeat constructor.
Qed.
Example C71_example_calls :
  fd_calls (get_function_details sample_space sample_offsets 100) =
  [ mkCallSite TailCall (Some 77) None (Some (Direct sample_g)) [] false None no_source
      [ mkArgument (Some "z"%string) (Some 92) [mkPiece 0 u64_max (LRegister 4) 0 false] [] [] [] ];
    mkCallSite NormalCall (Some 80) None (Some (ByLocal 120)) [mkPiece 0 u64_max (LRegister 1) 0 false] true None
      no_source [] ].
Proof. vm_compute. reflexivity. Qed.

(** ** C72: the size of an inlined function *)

Inductive inlined_in : inlined_function -> list inlined_function -> Prop :=
| in_here x l : In x l -> inlined_in x l
| in_deeper x y l : In y l -> inlined_in x (if_inlined y) -> inlined_in x l.

(** Every one, at any depth, stems from an entry in the function's tree. *)
Theorem C72_origin sp h off rd d x :
  sp off = Some (rd, d) -> off <> u64_max -> all_proper sp -> tree_64 d ->
  inlined_in x (fd_inlined (get_function_details sp h off)) ->
  exists e, In e (entries d) /\ inlines sp h rd e x.
Proof.
  intros S NE P T H. pose proof (C71_inlined sp h off rd d S NE P T) as F.
  assert (K : forall e, In e (flat_map (through_blocks is_inlined) (die_children d)) -> In e (entries d)).
  { intros e. apply in_children_through. }
  revert F K. generalize (flat_map (through_blocks is_inlined) (die_children d)) as l.
  induction H as [x l I|x y l I H IH]; intros es F K.
  - revert I K. induction F as [|e z es l E F IH2]; intros I K; [contradiction|].
    destruct I as [->|I]; [exists e; split; [apply K; now left|exact E]|].
    apply IH2; [exact I|]. intros e' J. apply K. now right.
  - assert (Y : exists e, In e es /\ inlines sp h rd e y).
    { clear - I F. revert I. induction F as [|e z es l E F IH2]; intros I; [contradiction|].
      destruct I as [->|I]; [exists e; split; [now left|exact E]|].
      destruct (IH2 I) as (e' & A & B). exists e'. split; [now right|exact B]. }
    destruct Y as (e & Ie & E). specialize (K e Ie). inversion E as [o a c s r inner sites C F1 F2]; subst.
    cbn [if_inlined] in *. apply (IH _ F1). intros e' J.
    apply (entries_trans d _ _ K). now apply (in_children_through is_inlined (Die TagInlined o a c)) in J.
Qed.
Print Assumptions C72_origin.

(** The entry does not end before it starts, and one that gives a length gives an address, too. *)
Definition forward (l : list attr) : Prop :=
  given_ranges l = None ->
  match given_extent l with
  | Some n => exists low, given_low l = Some low /\ low + n < two64
  | None => forall low high, given_low l = Some low -> given_high_pc l = Some high -> low < high
  end.
(** Its size is then the sum of the lengths of its ranges, unless the entry does not say what code
    it has. *)
Theorem C72_size sp h rd e x : inlines sp h rd e x -> forward (die_attrs e) ->
  if_size x = fold_right N.add 0 (map (fun r => rend r - rbegin r) (if_ranges x)) mod two64
  \/ if_size x = u64_max /\ if_ranges x = []
     /\ given_ranges (die_attrs e) = None /\ given_extent (die_attrs e) = None
     /\ (given_low (die_attrs e) = None \/ given_high_pc (die_attrs e) = None).
Proof.
  intros E F. destruct E as [o a c s r inner sites C F1 F2]. cbn [if_size if_ranges die_attrs] in *. clear F1 F2.
  unfold forward in F.
  destruct C as [rs kept G W K|low n G X L|n G X L|low high G X L H1 H2 H3|low high G X L H1 H2 H3|G X L].
  - left. reflexivity.
  - left. specialize (F G). rewrite X in F. destruct F as (low' & L' & B). rewrite L in L'. injection L' as <-.
    cbn [map fold_right rbegin rend]. rewrite (N.mod_small (low + n)) by exact B.
    rewrite N.mod_small; lia.
  - specialize (F G). rewrite X in F. destruct F as (low' & L' & B). rewrite L in L'. discriminate.
  - left. cbn [map fold_right rbegin rend]. rewrite N.mod_small; lia.
  - specialize (F G). rewrite X in F. specialize (F _ _ L H1). lia.
  - right. tauto.
Qed.
Print Assumptions C72_size.

Example C72_example :
  inlined_in (mkInlinedFunction 300 8 [mkRange 32 36; mkRange 48 52] no_source
                [mkParameter 310 (Some "z"%string) 92 []] [] [] [])
    (fd_inlined (get_function_details sample_space sample_offsets 100)).
Proof. eapply in_deeper; [left; reflexivity|]. apply in_here. vm_compute. now left. Qed.
Example C72_example_forward : forward (die_attrs sample_inlined) /\ forward (die_attrs sample_nested).
Proof. split; intros G; [|discriminate G]. exists 16. split; reflexivity. Qed.

(** A function that ends before it starts has no code, but a huge size. *)
Theorem C72_size_backwards_refuted :
  exists sp off rd d x, sp off = Some (rd, d) /\ off <> u64_max /\
    fd_inlined (get_function_details sp sample_offsets off) = [x] /\
    if_ranges x = [] /\ if_size x = two64 - 8.
Proof.
  exists (space_of [Die TagSubprogram 10 [] [Die TagInlined 20 [ALowPc (Some 24); AHighPcAddress (Some 16)] []]]), 10,
    sample_reading, (Die TagSubprogram 10 [] [Die TagInlined 20 [ALowPc (Some 24); AHighPcAddress (Some 16)] []]).
  eexists. split; [vm_compute; reflexivity|]. split; [discriminate|]. split; [vm_compute; reflexivity|].
  split; reflexivity.
Qed.
Print Assumptions C72_size_backwards_refuted.

(** ** C73: the parameters of a function agree with its details *)

(** The list of parameters of a function that is made when a unit is read, and the one that is made when the
    details of the function are asked for, are the same, for a function with at most one reference to another
    that has no abstract origin in turn. *)
Theorem C73_agree sp h low top d f rd :
  describes low top d f -> die_offset d <> u64_max -> sp (die_offset d) = Some (rd, d) ->
  (forall e g, describes low top e g -> exists rd', sp (die_offset e) = Some (rd', e)) ->
  (forall o, given_specification (die_attrs d) = Some (o, false) -> given_origin (die_attrs d) = None) ->
  (forall o, given_origin (die_attrs d) = Some o ->
     o <> u64_max /\ forall rd' e, sp o = Some (rd', e) -> given_origin (die_attrs e) = None) ->
  map (fun p => mkParameterType (pa_offset p) (pa_name p) (pa_ty p))
    (fd_parameters (get_function_details sp h (die_offset d))) = fu_parameters f.
Proof. apply signatures_ok. Qed.
Print Assumptions C73_agree.

Definition agree_tops : list die :=
  [ Die TagSubprogram 100 [AAbstractOrigin (Some 300)] [ Die TagParameter 110 [AAbstractOrigin (Some 310); AType (Some 93)] [] ];
    sample_callee ].
Lemma callee_described low tops : In sample_callee tops -> describes low tops sample_callee
  (mkFunction 300 None (Some "g"%string) None no_source opt64_none opt64_none [] false false
     [mkParameterType 310 (Some "z"%string) 92] type_offset_none).
Proof.
  intros I. apply (desc_own low tops TagNamespace None 300 [AName (Some "g"%string)]
    [ Die TagParameter 310 [AName (Some "z"%string); AType (Some 92)] [] ]); [now apply loc_top|reflexivity| |].
  - now apply occ_nowhere.
  - apply ext_new; [discriminate|]. apply ext_done.
Qed.
Example C73_example : exists f,
  describes None agree_tops
    (Die TagSubprogram 100 [AAbstractOrigin (Some 300)]
       [ Die TagParameter 110 [AAbstractOrigin (Some 310); AType (Some 93)] [] ]) f /\
  fu_parameters f = [mkParameterType 310 (Some "z"%string) 93] /\
  map (fun p => mkParameterType (pa_offset p) (pa_name p) (pa_ty p))
    (fd_parameters (get_function_details (space_of agree_tops) sample_offsets 100)) = fu_parameters f.
Proof.
  eexists. split.
  - eapply (desc_refer None agree_tops TagNamespace None 100 [AAbstractOrigin (Some 300)] _ 300 true sample_callee);
      [apply loc_top; now left|reflexivity|apply callee_described; cbn; tauto|reflexivity|now apply occ_nowhere|].
    apply (ext_amend [] (mkParameterType 310 (Some "z"%string) 92) [] 110
             [AAbstractOrigin (Some 310); AType (Some 93)] [] [] 310); [reflexivity|reflexivity|constructor|apply ext_done].
  - split; vm_compute; reflexivity.
Qed.
Example C73_example_hypotheses :
  forall e g, describes None agree_tops e g -> exists rd, space_of agree_tops (die_offset e) = Some (rd, e).
Proof.
  assert (L : forall t ns e, located None agree_tops t ns e ->
    In e (flat_map entries agree_tops)).
  { assert (C : forall t o a c e, In (Die t o a c) (flat_map entries agree_tops) -> In e c ->
               In e (flat_map entries agree_tops)).
    { intros t o a c e I J. apply in_flat_map in I. destruct I as (x & Ix & I). apply in_flat_map. exists x.
      split; [exact Ix|]. apply (entries_trans x _ _ I). right. apply in_flat_map. exists e.
      split; [exact J|]. destruct e. now left. }
    apply (located_mut None agree_tops (fun _ _ e => In e (flat_map entries agree_tops))
      (fun e _ => In e (flat_map entries agree_tops))); eauto.
    intros d I. apply in_flat_map. exists d. split; [exact I|]. destruct d. now left. }
  intros e g D. assert (I : In e (flat_map entries agree_tops)) by (inversion D; subst; eauto).
  exists sample_reading. vm_compute in I.
  repeat (destruct I as [<-|I]; [vm_compute; reflexivity|]). contradiction.
Qed.

(** If the abstract origin has one in turn, then the details lack what only that one gives. *)
Theorem C73_agree_chain_refuted : exists sp low top d f rd,
  describes low top d f /\ die_offset d <> u64_max /\ sp (die_offset d) = Some (rd, d) /\
  fu_parameters f = [mkParameterType 310 (Some "z"%string) 92] /\
  map (fun p => mkParameterType (pa_offset p) (pa_name p) (pa_ty p))
    (fd_parameters (get_function_details sp sample_offsets (die_offset d))) = [].
Proof.
  set (m := Die TagSubprogram 200 [AAbstractOrigin (Some 300)] []).
  set (d := Die TagSubprogram 100 [AAbstractOrigin (Some 200)] []).
  set (tops := [d; m; sample_callee]).
  assert (DM : describes None tops m
    (mkFunction 200 None (Some "g"%string) None no_source opt64_none opt64_none [] false false
       [mkParameterType 310 (Some "z"%string) 92] type_offset_none)).
  { apply (desc_refer None tops TagNamespace None 200 [AAbstractOrigin (Some 300)] [] 300 true sample_callee
      (mkFunction 300 None (Some "g"%string) None no_source opt64_none opt64_none [] false false
         [mkParameterType 310 (Some "z"%string) 92] type_offset_none));
      [apply loc_top; cbn; tauto|reflexivity|apply callee_described; cbn; tauto|reflexivity
      |now apply occ_nowhere|apply ext_done]. }
  exists (space_of tops), None, tops, d. eexists. exists sample_reading. split; [|split; [discriminate|split]].
  - eapply (desc_refer None tops TagNamespace None 100 [AAbstractOrigin (Some 200)] [] 200 true m);
      [apply loc_top; cbn; tauto|reflexivity|exact DM|reflexivity|now apply occ_nowhere|apply ext_done].
  - vm_compute. reflexivity.
  - split; [reflexivity|]. vm_compute. reflexivity.
Qed.
Print Assumptions C73_agree_chain_refuted.

(** ** C74: finding parameters and variables by offset *)

Theorem C74_parameters sp h off rd d o p :
  sp off = Some (rd, d) -> off <> u64_max ->
  NoDup (map e_offset (parameter_entries sp rd (die_attrs d) (die_children d))) ->
  parameters_by_offset (fd_parameters (get_function_details sp h off)) o = Some p <->
  exists g, In g (groups [] (parameter_entries sp rd (die_attrs d) (die_children d)))
            /\ e_offset (fst g) = o /\ p = parameter_of g.
Proof.
  intros S NE D. rewrite (C70_parameters sp h off rd d S NE). unfold parameters_by_offset. rewrite index_found.
  - split.
    + intros [I K]. apply in_map_iff in I. destruct I as (g & <- & I). exists g. auto.
    + intros (g & I & K & ->). split; [now apply in_map|exact K].
  - rewrite map_map. now apply group_heads.
Qed.
Print Assumptions C74_parameters.

Theorem C74_variables sp h off rd d o v :
  sp off = Some (rd, d) -> off <> u64_max -> all_proper sp ->
  NoDup (map e_offset (variable_entries sp rd (die_attrs d) (die_children d))) ->
  local_variables_by_offset (fd_variables (get_function_details sp h off)) o = Some v <->
  exists g, In g (groups [] (variable_entries sp rd (die_attrs d) (die_children d)))
            /\ e_offset (fst g) = o /\ v = variable_of g.
Proof.
  intros S NE P D. rewrite (C70_variables sp h off rd d S NE P). unfold local_variables_by_offset. rewrite index_found.
  - split.
    + intros [I K]. apply in_map_iff in I. destruct I as (g & <- & I). exists g. auto.
    + intros (g & I & K & ->). split; [now apply in_map|exact K].
  - rewrite map_map. now apply group_heads.
Qed.
Print Assumptions C74_variables.

Example C74_example :
  option_map lc_name (local_variables_by_offset
    (fd_variables (get_function_details sample_space sample_offsets 100)) 220) = Some (Some "y"%string) /\
  NoDup (map e_offset (variable_entries sample_space sample_reading
    (die_attrs sample_concrete) (die_children sample_concrete))).
Proof.
  split; [vm_compute; reflexivity|]. vm_compute. repeat constructor; cbn; intuition discriminate.
Qed.

(** A call through a local variable, with the offset of an entry that was joined with that of the abstract
    instance: the variable is not found. *)
Theorem C74_call_refuted : exists sp h off c o,
  In c (fd_calls (get_function_details sp h off)) /\ cs_origin c = Some (ByLocal o) /\
  local_variables_by_offset (fd_variables (get_function_details sp h off)) o = None /\
  exists rd d rd' e, sp off = Some (rd, d) /\ sp o = Some (rd', e)
    /\ In e (flat_map (through_blocks is_variable) (die_children d)).
Proof.
  exists sample_space, sample_offsets, 100.
  exists (mkCallSite NormalCall (Some 80) None (Some (ByLocal 120)) [mkPiece 0 u64_max (LRegister 1) 0 false] true None
      no_source []), 120.
  split; [rewrite C71_example_calls; cbn; tauto|]. split; [reflexivity|]. split; [vm_compute; reflexivity|].
  exists sample_reading, sample_concrete, sample_reading,
    (Die TagVariable 120 [AAbstractOrigin (Some 220); ALocation (PExpression [] [OAddress 4096; OPiece 32 None])] []).
  split; [vm_compute; reflexivity|]. split; [vm_compute; reflexivity|]. now left.
Qed.
Print Assumptions C74_call_refuted.
