(** Properties of what is read from code. *)
From Coq Require Import List NArith ZArith Bool Lia String.
From Verif Require Import Base RangeModel TypeModel NamespaceModel FileModel FileSpec FileProofs CfiModel LocationModel
  PrintModel NameModel CodeModel CodeSpec CodeProofs.
Import ListNotations.
Local Open Scope N_scope.

(** ** C50: the calls of a function *)

(** The calls listed for a function are those made by the instructions in its ranges, in order:
    from the address of the instruction to its target. *)
Theorem C50_calls disasm segments ranges cs :
  Forall good_segment segments -> Forall range_ok ranges ->
  (forall l a insns, disasm l a = Some insns -> Forall reads_fit insns) ->
  function_calls disasm segments ranges = Done cs <-> range_calls disasm segments ranges cs.
Proof.
  intros F R D. destruct (function_calls_spec disasm segments ranges F R D) as (ds & E & A). rewrite E. split.
  - now intros [= <-].
  - intros B. f_equal. exact (range_calls_unique disasm segments ranges ds cs R A B).
Qed.
Print Assumptions C50_calls.

(** There is always an answer. *)
Theorem C50_answers disasm segments ranges :
  Forall good_segment segments -> Forall range_ok ranges ->
  (forall l a insns, disasm l a = Some insns -> Forall reads_fit insns) ->
  exists cs, function_calls disasm segments ranges = Done cs.
Proof. intros F R D. destruct (function_calls_spec disasm segments ranges F R D) as (cs & E & _). now exists cs. Qed.
Print Assumptions C50_answers.

(** A direct call, a call through a pointer, a call through a register and a jump; the bytes
    stand for them. *)
Definition ex_code : list N := [232; 1; 255; 2; 255; 208; 235; 0].
Definition ex_insns : list insn :=
  [ mkInsn 4096 [232; 1] (Some (txt "call")) [txt "0x2000"] true false [PImm 8192];
    mkInsn 4098 [255; 2] (Some (txt "call")) [txt "qword ptr [rip + 4]"] true false [PMem XRip 4];
    mkInsn 4100 [255; 208] (Some (txt "call")) [txt "rax"] true false [PReg (XGeneral GA W64)];
    mkInsn 4102 [235; 0] (Some (txt "jmp")) [txt "0x1008"] false true [PImm 4104] ].
Definition ex_disasm (l : list N) (a : N) : option (list insn) :=
  if a =? 4096 then Some ex_insns else if a =? 8192 then None else Some [].
Definition ex_segments : list segment :=
  [ mkSegment 4096 (ex_code ++ [0; 48; 0; 0; 0; 0; 0; 0]); mkSegment 8192 [195; 195] ].
Example C50_example :
  function_calls ex_disasm ex_segments [mkRange 4096 4104; mkRange 8192 8194; mkRange 20000 20010]
  = Done [mkCall 4096 8192; mkCall 4098 12288].
Proof. reflexivity. Qed.
Example C50_example_hypotheses :
  Forall good_segment ex_segments /\
  Forall range_ok [mkRange 4096 4104; mkRange 8192 8194; mkRange 20000 20010] /\
  (forall l a insns, ex_disasm l a = Some insns -> Forall reads_fit insns).
Proof.
  assert (R : Forall reads_fit ex_insns).
  { repeat constructor; intros op d a size H; cbn in H; destruct H as [<-|[]]; intros X; inversion X; subst;
      cbn in *; lia. }
  repeat split; repeat constructor; cbn; try lia.
  intros l a insns. unfold ex_disasm. destruct (a =? 4096); [now intros [= <-]|].
  destruct (a =? 8192); [discriminate|]. intros [= <-]. constructor.
Qed.

(** A pointer that extends past the end of the address space: the tool panics. *)
Theorem C50_panic_refuted : exists disasm segments ranges,
  Forall good_segment segments /\ Forall range_ok ranges /\
  function_calls disasm segments ranges = Panic.
Proof.
  exists (fun _ a => Some [mkInsn a [1; 2] None [] true false [PMem XRip (2 ^ 64 - 4102)]]),
    [mkSegment 4096 [1; 2]; mkSegment (2 ^ 64 - 16) [0; 0; 0; 0; 0; 0; 0; 0]], [mkRange 4096 4098].
  split; [repeat constructor; cbn; lia|]. split; [repeat constructor; cbn; lia|]. reflexivity.
Qed.
Print Assumptions C50_panic_refuted.

(** ** C51: pointers and registers *)

(** The pointer read is the one stored at the address, lowest byte first, in the first segment
    that has all of it. *)
Theorem C51_memory segments a size :
  Forall good_segment segments -> a + size < 2 ^ 64 -> size = 4 \/ size = 8 ->
  (forall v, read_mem segments a size = Done (Some v) <-> stored segments a size v) /\
  (read_mem segments a size = Done None <-> forall v, ~ stored segments a size v).
Proof.
  intros F H S. destruct (read_mem_spec segments a size F H S) as [[E N]|(v & E & St)]; rewrite E.
  - split; [|easy]. intros v. split; [discriminate|]. intros St. exfalso. exact (N v St).
  - split.
    + intros w. split; [now intros [= <-]|]. intros Sw. now rewrite (stored_unique _ _ _ _ _ St Sw).
    + split; [discriminate|]. intros N. exfalso. exact (N v St).
Qed.
Print Assumptions C51_memory.

Example C51_example : read_mem ex_segments 4104 8 = Done (Some 12288) /\ read_mem ex_segments 4108 8 = Done None.
Proof. split; reflexivity. Qed.

(** The registers named in operands are compared under their AMD64 numbers. *)
Theorem C51_registers r n : convert_reg r = Some n <-> numbered amd64 r n.
Proof. apply convert_numbered. Qed.
Print Assumptions C51_registers.

Example C51_example_register : numbered amd64 (XGeneral (GR 9) W8Low) 9 /\ numbered amd64 (XYmm 3) 20.
Proof. split; [constructor; reflexivity|]. apply (nu_ymm amd64 3). reflexivity. Qed.

(** Also in code for i386, whose numbers are different. *)
Theorem C51_i386_refuted : exists r n m, numbered i386 r n /\ convert_reg r = Some m /\ n <> m.
Proof. exists (XGeneral GC W32), 1, 2. split; [constructor; reflexivity|]. split; [reflexivity|discriminate]. Qed.
Print Assumptions C51_i386_refuted.

(** ** C52: PLT entries *)

(** Every PLT section can be disassembled. *)
Definition plts_disassemble (disasm : list N -> N -> option (list insn)) (segments : list segment)
    (sections : list named_section) : Prop :=
  forall s, In s sections -> forall name a l, sec_name s = Some name -> String.prefix ".plt" name = true ->
    sec_address s = Some a -> loaded segments a (sec_size s) l -> disasm l a <> None.

(** The name shown for a call to a PLT entry is that of a relocation that the entry jumps
    through; and every entry that jumps through a relocation has a name. *)
Theorem C52_plts disasm segments relocations sections :
  Forall segment_fits segments -> Forall section_fits sections ->
  exists plts, find_plts disasm (relocation_map relocations) segments sections empty_map = Done plts /\
    (forall a s, plts a = Some s -> plt_entry disasm segments relocations sections a s) /\
    (plts_disassemble disasm segments sections ->
     forall a s, plt_entry disasm segments relocations sections a s -> plts a <> None).
Proof.
  intros F S. destruct (find_plts_spec disasm segments relocations F sections S empty_map) as (m & E & A & _ & C).
  exists m. split; [exact E|]. split; [|exact C]. intros a s H. destruct (A a s H) as [X|X]; [discriminate|exact X].
Qed.
Print Assumptions C52_plts.

(** If an entry jumps through one symbol only, then that is its name. *)
Theorem C52_name disasm segments relocations sections plts a s :
  Forall segment_fits segments -> Forall section_fits sections ->
  plts_disassemble disasm segments sections ->
  find_plts disasm (relocation_map relocations) segments sections empty_map = Done plts ->
  plt_entry disasm segments relocations sections a s ->
  (forall t, plt_entry disasm segments relocations sections a t -> t = s) ->
  plts a = Some s.
Proof.
  intros F S D E P U. destruct (C52_plts disasm segments relocations sections F S) as (m & E' & A & C).
  rewrite E in E'. injection E' as <-. specialize (C D a s P).
  destruct (plts a) as [t|] eqn:T; [|congruence]. now rewrite (U t (A a t T)).
Qed.
Print Assumptions C52_name.

(** The entry at 0x1010 has a prefix instruction, then jumps through the pointer at 0x2020. *)
Definition ex_plt_insns : list insn :=
  [ mkInsn 4112 [243; 15; 30; 250] (Some (txt "endbr64")) [] false false [];
    mkInsn 4116 [255; 37; 0; 0] (Some (txt "jmp")) [txt "qword ptr [rip + 0x1008]"] false true [PMem XRip 4104] ].
Definition ex_plt_disasm (l : list N) (a : N) : option (list insn) :=
  if a =? 4112 then Some ex_plt_insns else None.
Definition ex_plt_segments : list segment := [mkSegment 4112 (repeat 0 16)].
Definition ex_plt_sections : list named_section :=
  [mkNamed (Some ".text"%string) (Some 4112) 16; mkNamed (Some ".plt.sec"%string) (Some 4112) 16].
Example C52_example : exists plts,
  find_plts ex_plt_disasm (relocation_map [(8224, "puts"%string)]) ex_plt_segments ex_plt_sections empty_map
    = Done plts /\ plts 4112 = Some "puts"%string /\ plts 4116 = None.
Proof. eexists. split; [reflexivity|]. split; reflexivity. Qed.
Example C52_example_hypotheses :
  Forall segment_fits ex_plt_segments /\ Forall section_fits ex_plt_sections /\
  plts_disassemble ex_plt_disasm ex_plt_segments ex_plt_sections /\
  plt_entry ex_plt_disasm ex_plt_segments [(8224, "puts"%string)] ex_plt_sections 4112 "puts".
Proof.
  split; [repeat constructor; cbn; lia|]. split.
  { repeat constructor; intros a; cbn; intros [= <-]; lia. }
  split.
  - intros s [<-|[<-|[]]] name a l; cbn; intros [= <-]; [discriminate|]. intros _ [= <-] _. discriminate.
  - exists (mkNamed (Some ".plt.sec"%string) (Some 4112) 16), ex_plt_insns.
    exists (mkInsn 4116 [255; 37; 0; 0] (Some (txt "jmp")) [txt "qword ptr [rip + 0x1008]"] false true [PMem XRip 4104]).
    exists (PMem XRip 4104), 4104%Z, 8224, 8. split; [right; now left|]. split.
    { exists ".plt.sec"%string, 4112, (repeat 0 16). repeat split.
      exists [], (mkSegment 4112 (repeat 0 16)), []. split; [reflexivity|]. split; [intros t []|].
      split; [cbn; unfold segment_holds; cbn; lia|]. split; [reflexivity|].
      intros i Hi. cbn [rbegin rend sg_address]. reflexivity. }
    split; [right; now left|]. split; [reflexivity|]. split; [cbn; lia|]. split; [now left|].
    split; [now constructor|now left].
Qed.

(** A PLT section that cannot be disassembled hides the entries of the sections after it. *)
Theorem C52_hidden_refuted : exists disasm segments relocations sections plts a s,
  Forall segment_fits segments /\ Forall section_fits sections /\
  find_plts disasm (relocation_map relocations) segments sections empty_map = Done plts /\
  plt_entry disasm segments relocations sections a s /\ plts a = None.
Proof.
  destruct C52_example_hypotheses as (F & S & _ & P).
  exists ex_plt_disasm, (mkSegment 1024 (repeat 0 16) :: ex_plt_segments), [(8224, "puts"%string)],
    (mkNamed (Some ".plt"%string) (Some 1024) 16 :: ex_plt_sections).
  eexists. exists 4112, "puts"%string. split; [repeat constructor; cbn; lia|].
  split; [repeat constructor; intros a; cbn; intros [= <-]; lia|]. split; [reflexivity|].
  split; [|reflexivity].
  destruct P as (sec & insns & i & op & d & t & size & I & (name & a & l & E1 & E2 & E3 & (b & sg & r & E4 & N & H & B) & E5) & Q).
  exists sec, insns, i, op, d, t, size. split; [now right|]. split; [|exact Q].
  exists name, a, l. repeat split; try assumption.
  exists (mkSegment 1024 (repeat 0 16) :: b), sg, r. split; [now rewrite E4|]. split; [|now split].
  intros u [<-|Hu]; [|now apply N]. unfold segment_holds. cbn.
  cbn in I. destruct I as [<-|[<-|[]]]; cbn in E3; injection E3 as <-; cbn; lia.
Qed.
Print Assumptions C52_hidden_refuted.

(** ** C53: the notes below an instruction *)

(** The notes are exactly the true ones: functions, PLT entries and relocations that an operand
    refers to by address, parameters and variables that are in the register or the stack slot
    that it uses, and what it refers to relative to the instruction pointer.  For the first
    operand, the locations are those after the instruction; for the others those before it. *)
Theorem C53_notes n r i :
  Forall good_segment (nm_regions n) ->
  Forall local_fits (nm_parameters n) -> Forall local_fits (nm_variables n) -> reads_fit i ->
  exists l, notes n r i = Done l /\ forall x,
    In x l <-> exists k op, nth_error (in_operands i) k = Some op /\
      noted n r i (if (k =? 0)%nat then in_end i else in_address i) op x.
Proof.
  intros F F1 F2 R. exact (operand_notes_spec n r i F F1 F2 (in_operands i) true R).
Qed.
Print Assumptions C53_notes.

(** In the operand text, a jump inside the range is shown relative to the begin of the range;
    everything else as disassembled. *)
Theorem C53_operands r i k s :
  nth_error (in_ops i) k = Some s ->
  exists t, nth_error (operand_texts r i (in_operands i) (in_ops i)) k = Some t /\
    (forall z a, nth_error (in_operands i) k = Some (PImm z) -> Z.of_N a = (z mod 2 ^ 64)%Z ->
       in_jump i = true -> rbegin r <= a < rend r -> t = (txt "+" ++ hex (a - rbegin r))%list) /\
    (~ (exists z a, nth_error (in_operands i) k = Some (PImm z) /\ Z.of_N a = (z mod 2 ^ 64)%Z /\
         in_jump i = true /\ rbegin r <= a < rend r) -> t = s).
Proof.
  intros E. eexists. split; [apply operand_texts_spec; exact E|]. unfold operand_text. split.
  - intros z a -> A J R. cbn [is_imm]. rewrite (proj2 (as_u64_spec z a) A), J.
    rewrite (proj2 (range_contains_spec r a) R). cbn [andb]. do 2 f_equal.
    pose proof (Z.mod_pos_bound z (2 ^ 64) ltac:(lia)). apply sub64_le; lia.
  - intros N. destruct (nth_error (in_operands i) k) as [op|] eqn:O; [|reflexivity].
    destruct (is_imm op) as [a|] eqn:I; [|reflexivity].
    destruct (in_jump i && range_contains r a) eqn:X; [|reflexivity]. exfalso. apply N.
    apply imm_spec in I as (z & -> & A). apply andb_true_iff in X as [J R]. exists z, a.
    apply range_contains_spec in R. auto.
Qed.
Print Assumptions C53_operands.

(** The last instruction of the first example jumps out of the range. *)
Example C53_example_operands :
  operand_texts (mkRange 4096 4104) (mkInsn 4102 [235; 0] None [txt "0x1002"] false true [PImm 4098]) [PImm 4098]
    [txt "0x1002"] = [txt "+2"] /\
  operand_texts (mkRange 4096 4104) (mkInsn 4102 [235; 0] None [txt "0x1008"] false true [PImm 4104]) [PImm 4104]
    [txt "0x1008"] = [txt "0x1008"].
Proof. split; reflexivity. Qed.

Definition ex_function : func := mkFunc 1 None (Some "f"%string) None None 8192 2 [mkRange 8192 8194] false false.
Definition ex_local (name : string) (size : option N) (l : list (range * piece)) : local :=
  mkLocal size l (VName (txt name)).
Definition ex_register (r : N) : piece := mkPiece 0 opt64_none (LRegister r) 0 false.
Definition ex_slot (r : N) (o : Z) : piece := mkPiece 0 opt64_none (LRegisterOffset r o) 0 false.
Definition ex_x : local := ex_local "x" (Some 8) [(mkRange 4096 4100, ex_slot 6 (-16))].
Definition ex_y : local := ex_local "y" (Some 8) [(mkRange 4096 4104, ex_register 0)].
Definition ex_names : names :=
  mkNames (fun a => if a =? 8192 then Some ex_function else None) (fun _ => None) (fun _ => None)
    (fun _ => None) ex_segments [ex_x] [ex_y].
(** [mov rax, [rbp - 12]] loads the second half of [x] into the register of [y]. *)
Example C53_example :
  notes ex_names (mkRange 4096 4104)
    (mkInsn 4096 [72; 139; 69; 244] (Some (txt "mov")) [txt "rax"; txt "qword ptr [rbp - 12]"] false false
       [PReg (XGeneral GA W64); PMem (XGeneral GBP W64) (-12)])
  = Done [NRegister 0 ex_y; NRegisterOffset 6 (-16) ex_x] /\
  notes ex_names (mkRange 4096 4104) (mkInsn 4096 [232; 1] (Some (txt "call")) [txt "0x2000"] true false [PImm 8192])
  = Done [NFunction 8192 ex_function].
Proof. split; reflexivity. Qed.
Example C53_example_hypotheses :
  Forall good_segment (nm_regions ex_names) /\ Forall local_fits (nm_parameters ex_names) /\
  Forall local_fits (nm_variables ex_names).
Proof.
  split; [apply C50_example_hypotheses|].
  split; repeat constructor; cbn; try lia; intros; destruct H as (rg & pc & I & V & L & C);
    cbn in I; destruct I as [[= <- <-]|[]]; cbn in L; try discriminate; injection L as <- <-; lia.
Qed.

(** ** C54: listing the code of a function *)

(** Every instruction and every call-frame directive is listed once, each kind in its order. *)
Theorem C54_complete insns cfis :
  insns_of (entries insns cfis) = insns /\ cfis_of (entries insns cfis) = cfis.
Proof. split; [apply entries_insns|apply entries_cfis]. Qed.
Print Assumptions C54_complete.

(** A directive is listed directly where it takes effect: after the instructions at lower
    addresses and before those at its address or above. *)
Theorem C54_order insns cfis p x q y s :
  ascending (fun i => Some (in_address i)) insns -> ascending (fun c => opt64_get (fst c)) cfis ->
  entries insns cfis = p ++ x :: q ++ y :: s ->
  match x, y with
  | EInsn i, ECfi c => forall a, opt64_get (fst c) = Some a -> in_address i < a
  | ECfi c, EInsn i => forall a, opt64_get (fst c) = Some a -> a <= in_address i
  | _, _ => True
  end.
Proof. intros A C. exact (entries_order insns cfis A C p x q y s). Qed.
Print Assumptions C54_order.

(** If the code of all ranges can be disassembled, then all ranges are listed, with all
    instructions. *)
Theorem C54_ranges disasm segments cfis ranges :
  Forall segment_fits segments -> Forall range_ok ranges ->
  Forall (fun r => exists l insns, loaded segments (rbegin r) (rend r - rbegin r) l /\
                     disasm l (rbegin r) = Some insns) ranges ->
  exists result, listing disasm segments cfis ranges = Done result /\
    Forall2 (fun r x => fst x = r /\ exists insns, code_of disasm segments r insns /\
               exists es, snd x = Some es /\ insns_of es = insns /\ cfis_of es = cfis r) ranges result.
Proof.
  intros F R L. destruct (listing_spec disasm segments cfis ranges F R L) as (result & E & S).
  exists result. split; [exact E|]. clear - S. induction S as [|r x ranges result (H1 & insns & H2 & H3) S IH]; [constructor|].
  constructor; [|assumption]. split; [exact H1|]. exists insns. split; [exact H2|]. exists (entries insns (cfis r)).
  split; [exact H3|]. split; [apply entries_insns|apply entries_cfis].
Qed.
Print Assumptions C54_ranges.

Definition ex_cfis : list cfi :=
  [(opt64_none, StartProc); (4098, DefCfaOffset 16); (4100, Offset 6 (-16)); (4104, EndProc)].
Example C54_example :
  entries ex_insns ex_cfis =
  match ex_insns, ex_cfis with
  | [a; b; c; d], [w; x; y; z] => [ECfi w; EInsn a; ECfi x; EInsn b; ECfi y; EInsn c; EInsn d; ECfi z]
  | _, _ => []
  end.
Proof. reflexivity. Qed.
Example C54_example_ranges : exists es,
  listing ex_disasm ex_segments (fun _ => ex_cfis) [mkRange 4096 4104; mkRange 4106 4110]
  = Done [(mkRange 4096 4104, Some es); (mkRange 4106 4110, Some (map ECfi ex_cfis))].
Proof. eexists. reflexivity. Qed.

(** A range that cannot be read ends the listing: the ranges after it are not listed, although
    their code can be disassembled. *)
Theorem C54_dropped_refuted : exists disasm segments cfis ranges result r l insns,
  Forall segment_fits segments /\ Forall range_ok ranges /\
  listing disasm segments cfis ranges = Done result /\
  In r ranges /\ loaded segments (rbegin r) (rend r - rbegin r) l /\ disasm l (rbegin r) = Some insns /\
  insns <> [] /\ forall x, In x result -> fst x <> r.
Proof.
  exists ex_disasm, ex_segments, (fun _ => []), [mkRange 20000 20010; mkRange 4096 4104].
  eexists. exists (mkRange 4096 4104), ex_code, ex_insns.
  destruct C50_example_hypotheses as (F & _ & _).
  split; [now apply fits_of|]. split; [repeat constructor; cbn; lia|]. split; [reflexivity|].
  split; [right; now left|]. split.
  { exists [], (mkSegment 4096 (ex_code ++ [0; 48; 0; 0; 0; 0; 0; 0])), [mkSegment 8192 [195; 195]].
    split; [reflexivity|]. split; [intros t []|]. split; [unfold segment_holds; cbn; lia|].
    split; [reflexivity|]. intros i Hi. cbn [rbegin rend sg_address sg_bytes ex_code].
    replace (N.to_nat (4096 - 4096) + i)%nat with i by lia.
    cbn in Hi. do 8 (destruct i as [|i]; [reflexivity|]). lia. }
  split; [reflexivity|]. split; [discriminate|]. intros x [<-|[]]. discriminate.
Qed.
Print Assumptions C54_dropped_refuted.

(** Directives are listed in the syntax of the assembler. *)
Theorem C54_directives name d mnemonic operands :
  directive_is name d mnemonic operands -> offset_fits d ->
  directive_text name d = directive_line mnemonic operands.
Proof.
  assert (W : forall o, (- 2 ^ 63 < o < 2 ^ 63)%Z -> write_ofs o = signed_hex o).
  { intros o H. unfold write_ofs, signed_hex, hex_i64. destruct (Z.ltb_spec o 0).
    - rewrite (proj2 (as_u64_spec (- o) (Z.to_N (Z.abs o)))); [reflexivity|].
      rewrite Z2N.id by lia. rewrite Z.mod_small by lia. lia.
    - rewrite (proj2 (as_u64_spec o (Z.to_N (Z.abs o)))); [reflexivity|].
      rewrite Z2N.id by lia. rewrite Z.mod_small by lia. lia. }
  intros [] B; cbn [directive_text]; unfold directive_line, comma_separated; cbn [offset_fits] in B;
    repeat rewrite W by lia; try reflexivity.
  rewrite <- W by lia. unfold write_ofs. destruct (Z.ltb_spec o 0); [lia|reflexivity].
Qed.
Print Assumptions C54_directives.

Example C54_example_directive :
  directive_is (fun r => if r =? 6 then Some "rbp"%string else None) (Offset 6 (-16)) "offset"
    [txt "rbp"; txt "-0x10"] /\
  directive_line "offset" [txt "rbp"; txt "-0x10"] = txt ".cfi_offset rbp, -0x10".
Proof. split; [exact (di_offset (fun r => if r =? 6 then Some "rbp"%string else None) 6 (-16))|reflexivity]. Qed.

(** A negative offset of the canonical frame address is listed as a huge positive number. *)
Theorem C54_negative_refuted : exists name d mnemonic operands,
  directive_is name d mnemonic operands /\ directive_text name d <> directive_line mnemonic operands.
Proof.
  exists (fun _ => None), (DefCfaOffset (-16)), "def_cfa_offset"%string, [signed_hex (-16)].
  split; [constructor|]. vm_compute. discriminate.
Qed.
Print Assumptions C54_negative_refuted.

(** Listing a function always succeeds. *)
Theorem C54_answers function_id variable_id register_name disasm cfis n ranges :
  Forall good_segment (nm_regions n) ->
  Forall local_fits (nm_parameters n) -> Forall local_fits (nm_variables n) -> Forall range_ok ranges ->
  (forall l a insns, disasm l a = Some insns -> Forall reads_fit insns) ->
  exists d, instructions_doc function_id variable_id register_name disasm cfis n ranges = Done d.
Proof.
  intros F F1 F2 R D.
  pose proof (instructions_done function_id variable_id register_name disasm cfis n ranges F F1 F2 R D) as X.
  destruct (instructions_doc _ _ _ _ _ _ _) as [d|]; [now exists d|congruence].
Qed.
Print Assumptions C54_answers.
