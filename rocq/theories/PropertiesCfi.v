(** Call-frame information: lookup by address (C32), rows (C39) and their place among the
    instructions (C47). *)
From Coq Require Import List NArith ZArith Bool Sorted Lia.
From Verif Require Import Base RangeModel TypeModel CfiModel CfiSpec CfiProofs.
Import ListNotations.
Local Open Scope N_scope.

(** ** C32: lookup *)

(** Whatever the order of the entries and the behaviour of the binary search, the entry
    covering the address is found. *)
Theorem C32_found choice entries o f a :
  disjoint_fdes entries -> (forall e, In e entries -> proper (snd e)) ->
  In (o, f) entries -> covers f a -> find_fde choice (table_new entries) a = Some o.
Proof. apply find_entry. Qed.
Print Assumptions C32_found.

(** What is found covers the address, also for entries that overlap, are empty or wrap. *)
Theorem C32_sound choice entries o a :
  find_fde choice (table_new entries) a = Some o -> exists f, In (o, f) entries /\ covers f a.
Proof.
  intros E. apply find_sound in E. destruct E as (r & IN & B). apply table_in in IN.
  destruct IN as (f & IN & ->). exists f. split; [exact IN|now apply covers_range].
Qed.
Print Assumptions C32_sound.

Theorem C32_none choice entries a :
  (forall e, In e entries -> ~ covers (snd e) a) -> find_fde choice (table_new entries) a = None.
Proof. apply find_none. Qed.
Print Assumptions C32_none.

(** For a range of a function: the rows of the entry of [.eh_frame] covering its begin, or
    else of that of [.debug_frame], or else none. *)
Definition good_section (s : frame_section) : Prop :=
  disjoint_fdes s /\ (forall e, In e s -> proper (snd e)) /\ NoDup (map fst s).
Definition uncovered (s : frame_section) (a : N) : Prop := forall e, In e s -> ~ covers (snd e) a.

Theorem C32_file choice eh debug r :
  (forall o f, good_section eh -> In (o, f) eh -> covers f (rbegin r) ->
     file_cfi choice eh debug r = fde_cfi f) /\
  (forall o f, uncovered eh (rbegin r) -> good_section debug -> In (o, f) debug -> covers f (rbegin r) ->
     file_cfi choice eh debug r = fde_cfi f) /\
  (uncovered eh (rbegin r) -> uncovered debug (rbegin r) -> file_cfi choice eh debug r = []).
Proof.
  split; [|split].
  - intros o f (D & P & N) IN C. unfold file_cfi, get_cfi.
    now rewrite (find_entry choice eh o f _ D P IN C), (from_offset_in eh o f N IN).
  - intros o f U (D & P & N) IN C. unfold file_cfi, get_cfi. rewrite (find_none choice eh _ U).
    now rewrite (find_entry choice debug o f _ D P IN C), (from_offset_in debug o f N IN).
  - intros U V. unfold file_cfi, get_cfi. now rewrite (find_none choice eh _ U), (find_none choice debug _ V).
Qed.
Print Assumptions C32_file.

Definition example_cie : cie := mkCie 1 (-8)%Z [IDefCfa 7 8; IOffset 16 1].
Definition plain_fde (a n : N) : fde := mkFde a n None None false example_cie [].

(** With overlapping entries, or with an empty one, nothing may be found although an entry
    covers the address. *)
Theorem C32_overlap_refuted :
  exists entries o f a, In (o, f) entries /\ covers f a /\
    (forall e, In e entries -> proper (snd e)) /\
    forall choice, find_fde choice (table_new entries) a = None.
Proof.
  exists [(0, plain_fde 0 32); (100, plain_fde 4 4)], 0, (plain_fde 0 32), 10.
  split; [now left|]. split; [unfold covers; cbn; lia|]. split.
  - intros e [<-|[<-|[]]]; unfold proper, u64_max; cbn; lia.
  - intros choice. reflexivity.
Qed.
Print Assumptions C32_overlap_refuted.

Theorem C32_empty_refuted :
  exists entries o f a, In (o, f) entries /\ covers f a /\ disjoint_fdes entries /\
    forall choice, find_fde choice (table_new entries) a = None.
Proof.
  exists [(0, plain_fde 0 8); (100, plain_fde 4 0)], 0, (plain_fde 0 8), 6.
  split; [now left|]. split; [unfold covers; cbn; lia|]. split.
  - intros e1 e2 a [<-|[<-|[]]] [<-|[<-|[]]]; unfold covers; cbn; intros; try reflexivity; lia.
  - intros choice. reflexivity.
Qed.
Print Assumptions C32_empty_refuted.

Definition example_section : frame_section :=
  [(48, plain_fde 32 16); (0, plain_fde 16 16); (96, plain_fde 64 8)].
Example C32_example :
  good_section example_section /\
  find_fde (fun _ => 0%nat) (table_new example_section) 47 = Some 48 /\
  find_fde (fun _ => 0%nat) (table_new example_section) 32 = Some 48 /\
  find_fde (fun _ => 0%nat) (table_new example_section) 31 = Some 0 /\
  find_fde (fun _ => 0%nat) (table_new example_section) 48 = None.
Proof.
  split; [split; [|split]|repeat split].
  - intros e1 e2 a [<-|[<-|[<-|[]]]] [<-|[<-|[<-|[]]]]; unfold covers; cbn; intros; try reflexivity; lia.
  - intros e [<-|[<-|[<-|[]]]]; unfold proper, u64_max; cbn; lia.
  - repeat constructor; cbn; intuition discriminate.
Qed.

(** ** C39: rows *)

(** The rows are: the start marker; personality, LSDA and signal marker when there are any;
    a row without address for each CIE instruction; a row for each FDE instruction at its
    location; the end marker at the end.  A row's directive has the effect of its
    instruction; only changes of the location have no row. *)
Theorem C39_rows f :
  fd_address f < 2 ^ 64 -> Forall word (fd_instructions f) ->
  exists header common own,
    fde_cfi f = (opt64_none, StartProc) :: header ++ common ++ own ++
                [((fd_address f + fd_len f) mod 2 ^ 64, EndProc)] /\
    header = match fd_personality f with Some a => [(opt64_none, Personality a)] | None => [] end ++
             match fd_lsda f with Some a => [(opt64_none, Lsda a)] | None => [] end ++
             (if fd_signal f then [(opt64_none, SignalFrame)] else []) /\
    listed (fun _ a => a = opt64_none) (ci_data_align (fd_cie f)) [] (ci_instructions (fd_cie f)) common /\
    listed (at_location (fd_address f) (ci_code_align (fd_cie f))) (ci_data_align (fd_cie f))
           [] (fd_instructions f) own.
Proof.
  intros A W. unfold fde_cfi.
  exists (match fd_personality f with Some a => [(opt64_none, Personality a)] | None => [] end ++
          match fd_lsda f with Some a => [(opt64_none, Lsda a)] | None => [] end ++
          (if fd_signal f then [(opt64_none, SignalFrame)] else [])),
    (convert_all (fd_cie f) (fun _ => opt64_none) (ci_instructions (fd_cie f)) 0),
    (convert_all (fd_cie f) (fun loc => loc) (fd_instructions f) (fd_address f)).
  split; [|split; [reflexivity|split]].
  - cbn [app]. rewrite <- !app_assoc. reflexivity.
  - apply convert_unlabelled.
  - apply (convert_listed _ _ (fun loc => loc) (fd_address f)); [auto|exact W|now apply at_begin].
Qed.
Print Assumptions C39_rows.

(** The location of an instruction is unique. *)
Theorem C39_location_unique start align before a b :
  at_location start align before a -> at_location start align before b -> a = b.
Proof. apply at_location_unique. Qed.
Print Assumptions C39_location_unique.

(** If locations only advance and stay inside the range of the entry, the rows are by
    address. *)
Theorem C39_by_address f :
  (forall i, In i (fd_instructions f) -> is_set i = false) ->
  advance (fd_instructions f) * ci_code_align (fd_cie f) <= fd_len f ->
  fd_address f + fd_len f < u64_max ->
  by_address (fde_cfi f).
Proof. apply fde_cfi_sorted. Qed.
Print Assumptions C39_by_address.

Definition example_fde : fde :=
  mkFde 4096 64 (Some 8) None true (mkCie 4 (-8)%Z [IDefCfa 7 8; IOffset 16 1; INop])
    [IAdvanceLoc 1; IDefCfaOffset 16; IOffset 6 2; IAdvanceLoc 3; IDefCfaRegister 6;
     IRememberState; IAdvanceLoc 8; IRestoreState; IDefCfaOffsetSf (-3)%Z].
Example C39_example :
  fde_cfi example_fde =
    [(opt64_none, StartProc); (opt64_none, Personality 8); (opt64_none, SignalFrame);
     (opt64_none, DefCfa 7 8); (opt64_none, Offset 16 (-8));
     (4100, DefCfaOffset 16); (4100, Offset 6 (-16)); (4112, DefCfaRegister 6);
     (4112, RememberState); (4144, RestoreState); (4144, DefCfaOffset 24); (4160, EndProc)].
Proof. reflexivity. Qed.
Example C39_example_hypotheses :
  fd_address example_fde < 2 ^ 64 /\ Forall word (fd_instructions example_fde) /\
  advance (fd_instructions example_fde) * ci_code_align (fd_cie example_fde) <= fd_len example_fde.
Proof. split; [reflexivity|]. split; [repeat constructor|]. cbn. lia. Qed.

(** A set location goes back, so without the hypothesis the rows need not be by address. *)
Theorem C39_by_address_set_refuted :
  exists f, Forall word (fd_instructions f) /\ fd_address f + fd_len f < u64_max /\ ~ by_address (fde_cfi f).
Proof.
  exists (mkFde 64 64 None None false (mkCie 1 1%Z [])
    [IAdvanceLoc 8; IUndefined 1; ISetLoc 66; IUndefined 2]).
  split; [repeat constructor|]. split; [cbn; unfold u64_max; lia|]. intros S.
  unfold by_address in S. cbn in S. inversion S as [|x l S1 F1 E1]; subst. inversion S1 as [|y m S2 F2 E2]; subst.
  inversion F2 as [|z k H _ E3]; subst. unfold row_le, opt64_none, u64_max in H. cbn in H. lia.
Qed.
Print Assumptions C39_by_address_set_refuted.

(** ** C47: rows among instructions *)

(** Nothing is lost, repeated or reordered. *)
Theorem C47_complete {insn} (address : insn -> opt64) insns cfis :
  insn_rows (listing address insns cfis) = insns /\ cfi_rows (listing address insns cfis) = cfis.
Proof. destruct (listing_rows address _ insns cfis (le_n _)) as [A B]. split; assumption. Qed.
Print Assumptions C47_complete.

(** For instructions and rows in order of address, a row is before an instruction iff it is
    for the whole function or for an address up to that of the instruction. *)
Theorem C47_place {insn} (address : insn -> opt64) insns cfis :
  StronglySorted (fun i j => address i <= address j) insns -> by_address cfis ->
  (forall pre c mid i post, listing address insns cfis = pre ++ RCfi c :: mid ++ RInsn i :: post ->
     fst c = opt64_none \/ fst c <= address i) /\
  (forall pre i mid c post, listing address insns cfis = pre ++ RInsn i :: mid ++ RCfi c :: post ->
     fst c <> opt64_none /\ address i < fst c).
Proof.
  intros SI SC. destruct (listing_order address _ insns cfis (le_n _) SI SC) as [A B].
  split; [exact A|]. intros pre i mid c post. apply (B pre c mid i post).
Qed.
Print Assumptions C47_place.

(** So the rows of an entry that only advances stand where they take effect. *)
Theorem C47_entry {insn} (address : insn -> opt64) insns f :
  StronglySorted (fun i j => address i <= address j) insns ->
  (forall i, In i (fd_instructions f) -> is_set i = false) ->
  advance (fd_instructions f) * ci_code_align (fd_cie f) <= fd_len f ->
  fd_address f + fd_len f < u64_max ->
  (forall i, In i insns -> address i < fd_address f + fd_len f) ->
  exists rows,
    listing address insns (fde_cfi f) =
      RCfi (opt64_none, StartProc) :: rows ++ [RCfi (fd_address f + fd_len f, EndProc)] /\
    insn_rows rows = insns.
Proof. apply listing_entry. Qed.
Print Assumptions C47_entry.

Example C47_example :
  listing (fun i => i) [4096; 4100; 4104; 4112; 4144; 4150] (skipn 5 (fde_cfi example_fde)) =
    [RInsn 4096; RCfi (4100, DefCfaOffset 16); RCfi (4100, Offset 6 (-16)); RInsn 4100; RInsn 4104;
     RCfi (4112, DefCfaRegister 6); RCfi (4112, RememberState); RInsn 4112;
     RCfi (4144, RestoreState); RCfi (4144, DefCfaOffset 24); RInsn 4144; RInsn 4150; RCfi (4160, EndProc)].
Proof. reflexivity. Qed.
