(** Location expressions: places (C33), parts (C34) and addresses of variables (C48). *)
From Coq Require Import List NArith ZArith Bool Lia.
From Verif Require Import Base RangeModel TypeModel CfiModel LocationModel LocationSpec LocationProofs.
Import ListNotations.
Local Open Scope Z_scope.

(** ** C33: agreement with the stack machine *)

(** For an expression without addition and subtraction of stack entries: if running it gives
    a result, then parts are reported, and they are right.  All are reported unless there is
    a jump, and then those before it are. *)
Theorem C33_right E address ops result :
  indexes E address -> (en_address_size E <= 8)%N -> without is_sum ops ->
  runs E ops [] [] result ->
  exists pieces before after,
    evaluate (en_address_size E) address ops = Some pieces /\ result = before ++ after /\
    Forall2 (right_part E) pieces before /\ (without is_jump ops -> after = []).
Proof.
  intros I S NS R. apply (run_sound E address I S ops [] [] result R [] ([], 0%N)); auto; constructor.
Qed.
Print Assumptions C33_right.

(** Nothing is reported for expressions that have no result. *)
Theorem C33_defined E address ops pieces :
  indexes E address -> (en_address_size E <= 8)%N -> without is_sum ops -> without is_jump ops ->
  evaluate (en_address_size E) address ops = Some pieces -> exists result, runs E ops [] [] result.
Proof.
  intros I S NS NJ R. apply (run_complete E address I S (List.length ops) ops [] ([], 0%N) [] [] pieces); auto; constructor.
Qed.
Print Assumptions C33_defined.

Definition example_environment : environment := {|
  en_address_size := 8; en_register := fun r => 1000 * Z.of_N r; en_frame_base := 5000; en_cfa := 6000;
  en_tls := fun x => 70000 + x; en_address := fun i => 80 + Z.of_N i; en_push := fun _ => 9;
  en_unary := fun _ x => - x; en_binary := fun _ x y => x * y; en_deref := fun _ x _ => x + 1 |}.
Definition example_ops : list op :=
  [ORegister 3; OPiece 32 None; OFrameOffset (-16); OPlusConstant 4; OPiece 64 (Some 8%N);
   OUnsigned 7; OStackValue; OPiece 32 None; OPiece 16 None].
Example C33_example :
  evaluate 8 (fun _ => None) example_ops =
    Some [mkPiece 0 32%N (LRegister 3) 0 false; mkPiece 32 64%N (LFrameOffset (-12)) 8 false;
          mkPiece 96 32%N (LLiteral 7) 0 true; mkPiece 128 16%N LEmpty 0 false] /\
  runs example_environment example_ops [] []
    [(InRegister 3, Some 32%N, 0%N); (Memory 4988, Some 64%N, 8%N); (Value 7, Some 32%N, 0%N);
     (Nowhere, Some 16%N, 0%N)] /\
  indexes example_environment (fun _ => None) /\ without is_sum example_ops /\ without is_jump example_ops.
Proof.
  split; [reflexivity|]. split.
  - unfold example_ops. eapply r_place_piece; [constructor|]. eapply r_compute; [constructor|].
    eapply r_compute; [constructor|]. apply r_piece_memory. eapply r_compute; [constructor|].
    eapply r_place_piece; [constructor|]. apply r_piece_nowhere. apply r_parts. discriminate.
  - split; [intros i a; discriminate|]. split; intros o IN; repeat (destruct IN as [<-|IN]; [reflexivity|]); destruct IN.
Qed.

(** The result of an addition on the stack is lost: a wrong place is reported. *)
Theorem C33_plus_refuted : exists E ops pieces result,
  (en_address_size E <= 8)%N /\ runs E ops [] [] result /\
  evaluate (en_address_size E) (fun _ => None) ops = Some pieces /\ ~ Forall2 (right_part E) pieces result.
Proof.
  exists example_environment, [ORegisterOffset 7 0; OUnsigned 8; OUnsigned 1; OPlus],
    [mkPiece 0 opt64_none (LRegisterOffset 7 0) 0 false], [(Memory 9, None, 0%N)].
  split; [cbn; lia|]. split; [|split; [reflexivity|]].
  - eapply r_compute; [constructor|]. eapply r_compute; [constructor|]. eapply r_compute; [constructor|].
    eapply r_compute; [constructor|]. apply r_memory.
  - intros F. inversion F as [|a b l m R _]; subst. destruct R as [[_ (z & Z & [M|M])] _]; [|discriminate].
    injection Z as <-. discriminate.
Qed.
Print Assumptions C33_plus_refuted.

Theorem C33_minus_refuted : exists E ops result,
  (en_address_size E <= 8)%N /\ runs E ops [] [] result /\ result <> [] /\
  evaluate (en_address_size E) (fun _ => None) ops = Some [].
Proof.
  exists example_environment, [OFrameOffset 0; OUnsigned 16; OMinus], [(Memory 4984, None, 0%N)].
  split; [cbn; lia|]. split; [|split; [discriminate|reflexivity]].
  eapply r_compute; [constructor|]. eapply r_compute; [constructor|]. eapply r_compute; [constructor|]. apply r_memory.
Qed.
Print Assumptions C33_minus_refuted.

(** With 4-byte addresses an offset is right only modulo 2^32: it can be shown as a large
    positive number although it is negative. *)
Theorem C33_negative_refuted : exists E ops o result,
  en_address_size E = 4%N /\ runs E ops [] [] result /\ result = [(Memory (en_frame_base E - 4), None, 0%N)] /\
  evaluate 4 (fun _ => None) ops = Some [mkPiece 0 opt64_none (LFrameOffset o) 0 false] /\ o <> -4.
Proof.
  exists (mkEnvironment 4 (fun _ => 0) 5000 0 (fun x => x) (fun _ => 0) (fun _ => 0) (fun _ x => x)
    (fun _ x _ => x) (fun _ x _ => x)), [OFrameOffset (-8); OPlusConstant 4], 4294967292, [(Memory 4996, None, 0%N)].
  split; [reflexivity|]. split; [|split; [reflexivity|split; [reflexivity|discriminate]]].
  eapply r_compute; [constructor|]. eapply r_compute; [constructor|]. apply r_memory.
Qed.
Print Assumptions C33_negative_refuted.

(** ** C34: parts *)

(** The offset of each part is the sum of the sizes of the ones before, modulo 2^64. *)
Theorem C34_contiguous size address ops pieces :
  evaluate size address ops = Some pieces -> follow 0 pieces.
Proof.
  intros R. apply (run_pieces size address (List.length ops) ops [] ([], 0%N) pieces); auto. split; reflexivity.
Qed.
Print Assumptions C34_contiguous.

(** Unless a single one is the whole object, all parts have sizes. *)
Theorem C34_sizes size address ops pieces :
  (forall n off, In (OPiece n off) ops -> n <> opt64_none) ->
  evaluate size address ops = Some pieces ->
  (forall p, In p pieces -> pc_bit_size p <> opt64_none) \/ (exists p, pieces = [p]).
Proof.
  intros Z R. destruct (run_whole size address (List.length ops) ops [] ([], 0%N) pieces (le_n _) Z (Forall_nil _) R) as [F|H].
  - left. now apply Forall_forall.
  - now right.
Qed.
Print Assumptions C34_sizes.

Example C34_example : follow 0
  [mkPiece 0 32%N (LRegister 3) 0 false; mkPiece 32 64%N (LFrameOffset (-12)) 8 false;
   mkPiece 96 32%N (LLiteral 7) 0 true; mkPiece 128 16%N LEmpty 0 false].
Proof. repeat split. Qed.

(** A size of 2^64-1 bits is taken for an unknown one, and the next part overlaps. *)
Theorem C34_limit_refuted : exists ops p q,
  evaluate 8 (fun _ => None) ops = Some [p; q] /\ pc_bit_offset p = pc_bit_offset q /\
  In (OPiece u64_max None) ops.
Proof.
  eexists [ORegister 0; OPiece u64_max None; ORegister 1; OPiece 8 None], _, _.
  split; [reflexivity|]. split; [reflexivity|]. right. now left.
Qed.
Print Assumptions C34_limit_refuted.

(** ** C48: addresses of variables *)

(** The places that [l], locations with ranges, are evaluated to. *)
Definition places size address (l : list (range * list op)) : list (range * piece) :=
  flat_map (fun x => match evaluate size address (snd x) with
                     | Some ps => map (fun p => (fst x, p)) ps
                     | None => []
                     end) l.
(** Those at fixed addresses, with their sizes. *)
Definition fixed_places (l : list (range * piece)) : list (N * opt64) :=
  flat_map (fun x => if pc_is_value (snd x) then [] else
    match pc_location (snd x) with LAddress a => [(a, pc_bit_size (snd x))] | _ => [] end) l.

(** All places are kept, in order.  The address is that of the first place with a fixed one,
    and the size is that of the same place, in bytes, if it has one. *)
Theorem C48_local size address l :
  let v := evaluate_locals size address l (mkLocal opt64_none opt64_none []) in
  let ps := places size address l in
  (forall a n, In (a, n) (fixed_places ps) -> a <> opt64_none) ->
  lv_locations v = ps /\
  lv_address v = match fixed_places ps with [] => opt64_none | (a, _) :: _ => a end /\
  lv_size v = match fixed_places ps with
              | (_, n) :: _ => match opt64_get n with Some k => div_ceil k 8 | None => opt64_none end
              | [] => opt64_none
              end.
Proof.
  cbn zeta. intros H.
  destruct (evaluate_locals_fold size address l (mkLocal opt64_none opt64_none [])) as (A & S & L).
  assert (FX : fixed (map snd (evaluated size address l)) = fixed_places (places size address l)).
  { unfold fixed, fixed_places. change (places size address l) with (evaluated size address l).
    generalize (evaluated size address l). clear. intros l. induction l as [|[r p] l IH]; cbn; [reflexivity|]. now rewrite IH. }
  rewrite A, S, L, <- FX in *.
  destruct (use_first (map snd (evaluated size address l)) (mkLocal opt64_none opt64_none []) eq_refl H) as [B C].
  split; [reflexivity|]. split; [exact B|exact C].
Qed.
Print Assumptions C48_local.

Theorem C48_parameter size address l : evaluate_parameters size address l [] = places size address l.
Proof. apply (evaluate_parameters_fold size address l []). Qed.
Print Assumptions C48_parameter.

(** The number of bytes is the least that has room for the bits. *)
Theorem C48_bytes n : forall k, (n <= 8 * k <-> div_ceil n 8 <= k)%N.
Proof. intros k. pose proof (div_ceil_spec n). lia. Qed.
Print Assumptions C48_bytes.

(** The same for a variable that is not local, from the result of the library's evaluator. *)
Theorem C48_global before a n after :
  (forall p, In p before -> forall b, fst p <> GAddress b) ->
  variable_location before = None /\
  variable_location (before ++ (GAddress a, n) :: after) =
    Some (a, match n with Some k => div_ceil k 8 | None => opt64_none end).
Proof.
  intros NO. rewrite !variable_location_first, flat_map_app.
  assert (Z : forall l : list gimli_piece, (forall p, In p l -> forall b, fst p <> GAddress b) ->
    flat_map (fun p => match fst p with
                       | GAddress a => [(a, match snd p with Some n => div_ceil n 8 | None => opt64_none end)]
                       | _ => [] end) l = []).
  { clear. induction l as [|p l IH]; intros H; [reflexivity|]. cbn [flat_map].
    rewrite IH by (intros q IN; apply H; now right). specialize (H p (or_introl eq_refl)).
    destruct (fst p); [exfalso; eapply H; reflexivity|reflexivity|reflexivity]. }
  rewrite (Z before NO). split; reflexivity.
Qed.
Print Assumptions C48_global.

Example C48_example :
  let v := evaluate_locals 8 (fun _ => None)
    [(mkRange 0 8, [ORegister 3]); (mkRange 8 16, [OAddress 4096; OStackValue]);
     (mkRange 16 24, [OAddress 8192; OPiece 12 None]); (mkRange 24 32, [OAddress 16384])]
    (mkLocal opt64_none opt64_none []) in
  lv_address v = 8192%N /\ lv_size v = 2%N /\ List.length (lv_locations v) = 4%nat /\
  registers (lv_locations v) = [(mkRange 0 8, 3%N)].
Proof. repeat split. Qed.
