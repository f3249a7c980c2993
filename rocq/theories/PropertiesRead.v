(** Property theorems C75-C78: relocated words, units by offset, unit ranges, enumerators. *)
From Coq Require Import List Arith NArith ZArith Bool String Lia.
From Verif Require Import Base NamespaceModel RangeModel RangeSpec TypeModel DieModel DieSpec ItemModel
  ReadModel ReadSpec ReadProofs ReadMore.
Import ListNotations.
Local Open Scope N_scope.

(** ** Relocations *)

(** A section with two words of 4 bytes, one byte, and a word of 8 bytes; all words are relocated, one of them
    twice. *)
Definition ex_section : list N := [1; 0; 0; 0; 16; 0; 0; 0; 7; 0; 0; 0; 0; 0; 0; 0; 0].
Definition ex_relocs : list object_reloc :=
  [mkReloc 0 4 (ToSection (Some 512)) RelAbsolute 3 false;
   mkReloc 4 4 (ToSymbol (Some 4096)) RelAbsolute 0 true;
   mkReloc 9 8 (ToSymbol (Some 5000)) RelRelative (-4) false;
   mkReloc 8 1 ToOther RelAbsolute 5 false;
   mkReloc 8 1 (ToSymbol None) RelAbsolute 5 false;
   mkReloc 8 1 (ToSymbol (Some 9)) RelOther 5 false].
Definition ex_image : list N := [3; 2; 0; 0; 16; 16; 0; 0; 7; 23; 19; 0; 0; 0; 0; 0; 0].
(** The whole section is read in pieces, by two readers. *)
Definition ex_todo : list (nat * act) :=
  [(0, Split 4); (0, Copy); (1, ReadOffset false); (0, ReadSizedOffset 4); (2, Truncate 3); (2, ReadAddress 4);
   (0, ReadPlain 1); (0, ReadAddress 8); (0, ReadAddress 8); (9, MakeEmpty)]%nat.

(** C75: a word that is read where relocations apply is the target with the addend, the last such relocation
    counting; elsewhere it is what is stored.  The reader moves on by the size of the word. *)
Theorem C75_words_are_relocated :
  forall be section sa rs w a n,
    Forall (fun b => b < 256) section -> (w_start w + w_len w <= List.length section)%nat ->
    action_reads a n true -> (n <= w_len w)%nat ->
    exists v,
      perform be section (add_relocations sa rs) w a
        = (mkWindow (w_start w + n) (w_len w - n), None, Some v) /\
      word_value sa rs (w_start w) (word_at be section (w_start w) n) v.
Proof.
  intros be section sa rs w a n Bytes W A Le.
  exists (relocate (add_relocations sa rs) (w_start w) (word_at be section (w_start w) n)). split.
  - pose proof (proj2 (reads_iff a n true) A) as R. rewrite <- word_eq by lia.
    destruct a; cbn [perform]; try (inversion A; fail); rewrite R, (proj2 (Nat.leb_le _ _) Le); reflexivity.
  - apply relocate_value. eapply N.lt_le_trans; [now apply word_at_bound|].
    apply bytes_small. apply reads_positive in A. lia.
Qed.
Print Assumptions C75_words_are_relocated.

(** C75: bytes that are read without relocation are those of the section. *)
Theorem C75_bytes_are_not_relocated :
  forall be section sa rs w n,
    (w_start w + w_len w <= List.length section)%nat -> (n <= w_len w)%nat ->
    perform be section (add_relocations sa rs) w (ReadPlain n)
      = (mkWindow (w_start w + n) (w_len w - n), None, Some (word_at be section (w_start w) n)).
Proof.
  intros be section sa rs w n W Le. cbn [perform reads]. rewrite (proj2 (Nat.leb_le _ _) Le), word_eq by lia.
  reflexivity.
Qed.
Print Assumptions C75_bytes_are_not_relocated.

(** C75: skipping, cutting, splitting and copying share out the bytes that are left to a reader, and read
    nothing. *)
Theorem C75_parts :
  forall be section rs w a n, asks_for a n -> (n <= w_len w)%nat ->
    exists w' new, perform be section rs w a = (w', new, None) /\ parts w a w' new.
Proof.
  intros be section rs w a n A Le.
  assert (S : forall s n m, seq s n ++ seq (s + n) m = seq s (n + m)) by (intros; symmetry; apply seq_app).
  destruct A; cbn [perform]; rewrite ?(proj2 (Nat.leb_le _ _) Le); do 2 eexists; (split; [reflexivity|]).
  - apply pt_skip with (seq (w_start w) n); [|apply seq_length]. unfold left_to; cbn [w_start w_len].
    rewrite S. f_equal. lia.
  - apply pt_truncate with (seq (w_start w + n) (w_len w - n)); unfold left_to; cbn [w_start w_len]; [|apply seq_length].
    rewrite S. f_equal. lia.
  - now apply pt_empty.
  - apply pt_split; unfold left_to; cbn [w_start w_len]; [|apply seq_length]. rewrite S. f_equal. lia.
  - apply pt_copy.
Qed.
Print Assumptions C75_parts.

(** C75: if there are not enough bytes, nothing happens. *)
Theorem C75_too_few_bytes :
  forall be section rs w a n r, asks_for a n \/ action_reads a n r -> (w_len w < n)%nat ->
    perform be section rs w a = (w, None, None).
Proof.
  intros be section rs w a n r A Lt. apply Nat.leb_gt in Lt. destruct A as [A|A].
  - destruct A; cbn [perform]; rewrite ?Lt; try reflexivity; discriminate.
  - pose proof (proj2 (reads_iff a n r) A) as R. destruct A; cbn [perform]; rewrite R, Lt; reflexivity.
Qed.
Print Assumptions C75_too_few_bytes.

Example C75_example_split :
  perform false [1; 2; 3; 4; 5; 6] [] (mkWindow 2 4) (Split 3) = (mkWindow 5 1, Some (mkWindow 2 3), None) /\
  left_to (mkWindow 2 4) = left_to (mkWindow 2 3) ++ left_to (mkWindow 5 1).
Proof. vm_compute. auto. Qed.

(** C75: whatever is read, by however many readers, is read as from a section in which the relocations have
    been applied beforehand, if nothing reads a part of a field. *)
Theorem C75_reads_as_linked :
  forall be section sa rs image todo,
    Forall (fun b => b < 256) section -> fields_inside (List.length section) rs ->
    linked be sa rs section image ->
    Forall (fun x => reads_whole_fields rs (fst (fst x)) (snd (fst x)))
      (read_section be section (add_relocations sa rs) todo) ->
    read_section be section (add_relocations sa rs) todo = read_section be image [] todo.
Proof. intros be section sa rs image todo B I L R. now apply linked_section. Qed.
Print Assumptions C75_reads_as_linked.

(** C75: there is such a section if the fields do not overlap and the values fit. *)
Theorem C75_linked_section_exists :
  forall be section sa rs,
    fields_apart rs -> fields_inside (List.length section) rs ->
    (forall r v, In r rs -> field_value sa r (word_at be section (rl_offset r) (rl_bytes r)) v ->
       v < 256 ^ N.of_nat (rl_bytes r)) ->
    exists image, linked be sa rs section image.
Proof. intros be section sa rs A I V. now apply linked_exists. Qed.
Print Assumptions C75_linked_section_exists.

Lemma ex_applied r : In r ex_relocs -> applied r -> In r (firstn 3 ex_relocs).
Proof.
  intros I (t & rel & A). cbn in I |- *.
  decompose [or] I; clear I; subst; auto; try contradiction; inversion A.
Qed.

Ltac ex_fields I := cbn in I; destruct I as [<-|[<-|[<-|[]]]].

Example C75_example_linked : linked false 100 ex_relocs ex_section ex_image.
Proof.
  split; [reflexivity| |].
  - intros r I A. apply ex_applied in I; [|exact A]. ex_fields I.
    + exists 512, false. split; [constructor|vm_compute; reflexivity].
    + exists 4096, false. split; [constructor|vm_compute; reflexivity].
    + exists 5000, true. split; [constructor|vm_compute; reflexivity].
  - intros i L H.
    assert (E : i = 8%nat).
    { pose proof (H (nth 0 ex_relocs (mkReloc 0 0 ToOther RelOther 0 false))) as H0.
      pose proof (H (nth 1 ex_relocs (mkReloc 0 0 ToOther RelOther 0 false))) as H1.
      pose proof (H (nth 2 ex_relocs (mkReloc 0 0 ToOther RelOther 0 false))) as H2.
      cbn in H0, H1, H2, L. unfold apart in *.
      specialize (H0 ltac:(auto) ltac:(eexists _, _; constructor)).
      specialize (H1 ltac:(auto) ltac:(eexists _, _; constructor)).
      specialize (H2 ltac:(auto) ltac:(eexists _, _; constructor)).
      cbn in H0, H1, H2. lia. }
    subst. reflexivity.
Qed.
Example C75_example_inside : fields_inside (List.length ex_section) ex_relocs.
Proof. intros r I A. apply ex_applied in I; [|exact A]. ex_fields I; cbn; lia. Qed.
Example C75_example_whole :
  Forall (fun x => reads_whole_fields ex_relocs (fst (fst x)) (snd (fst x)))
    (read_section false ex_section (add_relocations 100 ex_relocs) ex_todo).
Proof.
  let l := eval vm_compute in (read_section false ex_section (add_relocations 100 ex_relocs) ex_todo) in
  change (Forall (fun x => reads_whole_fields ex_relocs (fst (fst x)) (snd (fst x))) l).
  repeat (apply Forall_cons || apply Forall_nil).
  all: intros n b R Le r I A; apply ex_applied in I; [|exact A]; inversion R; subst; cbn in Le; try lia;
    ex_fields I; unfold apart; cbn; auto; lia.
Qed.
Example C75_example_read :
  map snd (read_section false ex_section (add_relocations 100 ex_relocs) ex_todo)
  = [None; None; Some 515; Some 4112; None; None; Some 7; Some 4887; None].
Proof. vm_compute. reflexivity. Qed.
Example C75_example_same :
  read_section false ex_section (add_relocations 100 ex_relocs) ex_todo = read_section false ex_image [] ex_todo.
Proof. vm_compute. reflexivity. Qed.
Example C75_example_last :
  relocate (add_relocations 0 [mkReloc 4 4 (ToSymbol (Some 1)) RelAbsolute 0 false;
                               mkReloc 4 4 (ToSymbol (Some 2)) RelAbsolute 0 true]) 4 30 = 32.
Proof. vm_compute. reflexivity. Qed.

(** C75: a value is not cut to the size of its field: a word of 4 bytes with an implicit addend of -4 is read
    as a number that does not fit in 4 bytes, not as the address that a linker would store. *)
Theorem C75_value_fits_the_field_refuted :
  exists section rs a v, action_reads a 4 true /\
    perform false section (add_relocations 0 rs) (mkWindow 0 4) a = (mkWindow 4 0, None, Some v) /\
    rs = [mkReloc 0 4 (ToSymbol (Some 8)) RelAbsolute 0 true] /\
    word_at false section 0 4 = 2 ^ 32 - 4 /\ v = 2 ^ 32 + 4.
Proof.
  exists [252; 255; 255; 255], [mkReloc 0 4 (ToSymbol (Some 8)) RelAbsolute 0 true], (ReadOffset false), (2 ^ 32 + 4).
  split; [apply (ar_offset false)|]. repeat split; vm_compute; reflexivity.
Qed.
Print Assumptions C75_value_fits_the_field_refuted.

(** ** Units by offset *)

(** C76: an offset of an entry is found in the unit it lies in, and other offsets in none. *)
Theorem C76_units_by_offset :
  forall us o, units_apart us ->
    (forall u, In u us -> inside_unit o u -> find_unit us o = Some (u, o - ud_begin u)) /\
    ((forall u, In u us -> ~ inside_unit o u) -> find_unit us o = None) /\
    (forall u x, find_unit us o = Some (u, x) ->
       In u us /\ inside_unit o u /\ ud_first u <= x /\ o = ud_begin u + x).
Proof.
  intros us o D. split; [|split].
  - intros u I H. destruct (find_unit us o) as [[v x]|] eqn:E.
    + apply find_unit_sound in E as (Iv & Hv & Ex). assert (v = u) by (eapply inside_unique; eauto). subst v.
      do 2 f_equal. lia.
    + destruct (find_unit_none us o E u I H).
  - intros H. destruct (find_unit us o) as [[v x]|] eqn:E; [|reflexivity].
    apply find_unit_sound in E as (Iv & Hv & _). destruct (H v Iv Hv).
  - intros u x E. apply find_unit_sound in E as (I & H & Ex). repeat split; try apply H; try assumption.
    unfold inside_unit in H. lia.
Qed.
Print Assumptions C76_units_by_offset.

Definition ex_units : list unit_place := [mkPlace 0 12 100; mkPlace 100 11 300; mkPlace 300 24 301].
Example C76_example_apart : units_apart ex_units.
Proof. split; repeat constructor; cbn; lia. Qed.
Example C76_example :
  map (find_unit ex_units) [11; 12; 99; 100; 111; 299; 300; 324] =
  [None; Some (mkPlace 0 12 100, 12); Some (mkPlace 0 12 100, 99); None;
   Some (mkPlace 100 11 300, 11); Some (mkPlace 100 11 300, 199); None; None].
Proof. vm_compute. reflexivity. Qed.

(** ** The ranges of units *)

(** C77: the ranges of a unit have the addresses of its extent, and besides only alignment padding. *)
Theorem C77_unit_covers_its_extent :
  forall program l rs, (forall r, In r rs <-> unit_extent l program r) -> Forall in_bounds rs ->
    canonical (unit_ranges program l) /\
    forall a, (covers rs a -> covers (unit_ranges program l) a) /\
              (covers (unit_ranges program l) a -> covers rs a \/ alignment_padding rs a).
Proof.
  intros program l rs H B. split; [now apply (unit_canonical program l rs)|]. intros a. split.
  - now apply unit_covers.
  - now apply unit_covered.
Qed.
Print Assumptions C77_unit_covers_its_extent.

(** C77: a unit starts at the lowest address of its extent. *)
Theorem C77_unit_starts_at_its_lowest_address :
  forall program l rs a, (forall r, In r rs <-> unit_extent l program r) -> Forall in_bounds rs ->
    (unit_low_pc program l = Some a <-> covers rs a /\ forall b, covers rs b -> a <= b).
Proof. intros program l rs a H B. now apply unit_low. Qed.
Print Assumptions C77_unit_starts_at_its_lowest_address.

Definition ex_rows : line_rows :=
  [(0, false); (8, true); (4096, false); (4100, false); (4090, false); (4128, true); (77, true);
   (2048, false); (2060, true); (2064, false); (2070, true); (9000, false)].
Example C77_example_rows :
  unit_ranges (Some ex_rows) [ALowPc (Some 5); AHighPcSize 3] = [mkRange 2048 2070; mkRange 4096 4128] /\
  unit_low_pc (Some ex_rows) [ALowPc (Some 5); AHighPcSize 3] = Some 2048.
Proof. vm_compute. auto. Qed.
Example C77_example_extent :
  forall r, In r [mkRange 4096 4128; mkRange 2048 2060; mkRange 2064 2070] <->
            unit_extent [ALowPc (Some 5); AHighPcSize 3] (Some ex_rows) r.
Proof.
  intros r. change ([mkRange 4096 4128; mkRange 2048 2060; mkRange 2064 2070]) with (sequences ex_rows None).
  rewrite (proj1 (sequences_in ex_rows)). split; [intros [? ?]; now constructor|]. intros U. now inversion U.
Qed.
Example C77_example_attrs :
  unit_ranges None [ALowPc (Some 5); AHighPcSize 3] = [mkRange 5 8] /\
  unit_ranges None [ALowPc (Some 5); AHighPcSize 3; ARanges (Some [(9, 9); (20, 30); (10, 12)])]
    = [mkRange 10 12; mkRange 20 30] /\
  unit_low_pc None [ALowPc (Some 5); AHighPcSize (2 ^ 64)] = None.
Proof. vm_compute. auto. Qed.

(** ** Enumerators *)

(** C78: the enumerators of an enumeration over a base type are those of its entry, in order; constants are
    numbers without sign if the base type is one of those, else numbers with sign. *)
Theorem C78_enumerators :
  forall h codes x children t b,
    from_offset h (e_ty x) = Some t -> t_kind t = TBase b ->
    (forall attrs c, In (Some attrs) children -> In (EnConst c) attrs -> const_sane c) ->
    exists unsigned : bool,
      (unsigned = true <-> In (codes (t_offset t)) [1; 2; 7; 8]) /\
      Forall2 (enumerator_of unsigned)
        (flat_map (fun c => match c with Some attrs => [attrs] | None => [] end) children)
        (enumerators h (fun o => encoding_of_code (codes o)) x children).
Proof.
  intros h codes x children t b T K S. exists (is_unsigned (encoding_of_code (codes (t_offset t)))). split.
  - generalize (codes (t_offset t)). intros c. cbn [In].
    destruct c as [|p]; [cbn; intuition discriminate|].
    do 5 (try destruct p as [p|p|]); cbn; intuition (discriminate || lia).
  - unfold enumerators, enumeration_encoding. rewrite T, K. apply parse_enumerators_of. intros attrs I c. now apply S.
Qed.
Print Assumptions C78_enumerators.

(** C78: if the enumeration is not over a base type, constants are numbers with sign. *)
Theorem C78_enumerators_signed :
  forall h codes x children,
    (forall t b, from_offset h (e_ty x) = Some t -> t_kind t <> TBase b) ->
    (forall attrs c, In (Some attrs) children -> In (EnConst c) attrs -> const_sane c) ->
    Forall2 (enumerator_of false)
      (flat_map (fun c => match c with Some attrs => [attrs] | None => [] end) children)
      (enumerators h (fun o => encoding_of_code (codes o)) x children).
Proof.
  intros h codes x children T S. unfold enumerators.
  assert (E : enumeration_encoding h (fun o => encoding_of_code (codes o)) x = None).
  { unfold enumeration_encoding. destruct (from_offset h (e_ty x)) as [t|]; [|reflexivity].
    specialize (T t). destruct (t_kind t) as [|b| | | | | | | | | |]; try reflexivity. now destruct (T b eq_refl). }
  rewrite E. apply (parse_enumerators_of EncSigned). intros attrs I c. now apply S.
Qed.
Print Assumptions C78_enumerators_signed.

(** What a constant stands for is determined. *)
Theorem C78_constants_are_determined :
  forall unsigned c v v', const_sane c -> const_means unsigned c v -> const_means unsigned c v' -> v = v'.
Proof.
  intros unsigned c v v' S M M'. apply const_value_iff in M; [|exact S]. apply const_value_iff in M'; [|exact S].
  congruence.
Qed.
Print Assumptions C78_constants_are_determined.

Definition ex_types : type_env := fun o =>
  match o with
  | 1 => Some (mkType 1 (TBase (mkBase (Some "unsigned char") 1)))
  | 2 => Some (mkType 2 (TDef (mkDef None (Some "uint8_t") 1)))
  | 3 => Some (mkType 3 (TBase (mkBase (Some "char8_t") 1)))
  | 4 => Some (mkType 4 (TBase (mkBase (Some "signed char") 1)))
  | _ => None
  end%string.
Definition ex_codes : N -> N := fun o => match o with 1 => 8 | 3 => 16 | 4 => 6 | _ => 0 end.
Definition ex_children : list (option (list enumerator_attr)) :=
  [Some [EnName (Some "A"); EnConst (FixedData 1 200)]; None;
   Some [EnConst (SignedData (-3)); EnOther; EnName (Some "B")]]%string.
Example C78_example :
  enumerators ex_types (fun o => encoding_of_code (ex_codes o)) (mkEnum None None false 1 1) ex_children
    = [mkEnumerator (Some "A"%string) (EvUnsigned 200); mkEnumerator (Some "B"%string) EvOther] /\
  enumerators ex_types (fun o => encoding_of_code (ex_codes o)) (mkEnum None None false 4 1) ex_children
    = [mkEnumerator (Some "A"%string) (EvSigned (-56)); mkEnumerator (Some "B"%string) (EvSigned (-3))].
Proof. vm_compute. auto. Qed.
Example C78_example_sane :
  forall attrs c, In (Some attrs) ex_children -> In (EnConst c) attrs -> const_sane c.
Proof.
  intros attrs c [E|[E|[E|[]]]] I; try discriminate; injection E as <-; cbn in I;
    decompose [or] I; try discriminate; try contradiction;
    match goal with H : EnConst _ = EnConst _ |- _ => injection H as <- end; cbn; auto.
  split; [auto|reflexivity].
Qed.

(** C78: names for types are not looked through: over a name for a type without sign, a constant of 200 is
    read as -56. *)
Theorem C78_names_for_types_refuted :
  exists h codes x children target,
    from_offset h (e_ty x) = Some (mkType (e_ty x) (TDef (mkDef None (Some "uint8_t"%string) target))) /\
    codes target = 8 /\
    children = [Some [EnName (Some "A"%string); EnConst (FixedData 1 200)]] /\
    enumerators h (fun o => encoding_of_code (codes o)) x children
      = [mkEnumerator (Some "A"%string) (EvSigned (-56))].
Proof.
  exists ex_types, ex_codes, (mkEnum None None false 2 1),
    [Some [EnName (Some "A"%string); EnConst (FixedData 1 200)]], 1.
  vm_compute. auto.
Qed.
Print Assumptions C78_names_for_types_refuted.

(** C78: characters of Unicode have no sign, but their constants are read as if they had one. *)
Theorem C78_unicode_characters_refuted :
  exists h codes x t b,
    from_offset h (e_ty x) = Some t /\ t_kind t = TBase b /\ codes (t_offset t) = 16 /\
    enumerators h (fun o => encoding_of_code (codes o)) x
      [Some [EnName (Some "A"%string); EnConst (FixedData 1 200)]]
      = [mkEnumerator (Some "A"%string) (EvSigned (-56))].
Proof.
  exists ex_types, ex_codes, (mkEnum None None false 3 1), (mkType 3 (TBase (mkBase (Some "char8_t"%string) 1))),
    (mkBase (Some "char8_t"%string) 1).
  vm_compute. auto.
Qed.
Print Assumptions C78_unicode_characters_refuted.
