(** Proofs about call-frame tables. *)
From Coq Require Import List NArith ZArith Bool Sorted Permutation Lia Arith.
From Verif Require Import Base BaseProofs RangeModel TypeModel CfiModel CfiSpec.
Import ListNotations.
Local Open Scope N_scope.

(** ** Lookup *)

Lemma wrap64_le x : wrap64 x <= x.
Proof. unfold wrap64. apply N.mod_le. discriminate. Qed.

Lemma cmp_range_tp : total_preorder (fun a b : range * N => cmp_range (fst a) (fst b)).
Proof.
  split.
  - intros [x o]. unfold cmp_range. now rewrite !N.compare_refl.
  - intros [x o] [y p]. unfold cmp_range, then_with. cbn [fst].
    rewrite (N.compare_antisym (rbegin y)), (N.compare_antisym (rend y)).
    destruct (rbegin y ?= rbegin x); cbn [CompOpp]; rewrite ?CompOpp_involutive; reflexivity.
  - intros [x o] [y p] [z q]. unfold cmp_range, then_with. cbn [fst].
    destruct (N.compare_spec (rbegin x) (rbegin y)), (N.compare_spec (rbegin y) (rbegin z)),
      (N.compare_spec (rbegin x) (rbegin z)); try congruence; try lia;
      destruct (N.compare_spec (rend x) (rend y)), (N.compare_spec (rend y) (rend z)),
        (N.compare_spec (rend x) (rend z)); try congruence; lia.
Qed.

Definition by_begin (t : fde_table) : Prop :=
  StronglySorted (fun a b => rbegin (fst a) <= rbegin (fst b)) t.

Lemma table_sorted entries : by_begin (table_new entries).
Proof.
  unfold by_begin, table_new.
  pose proof (stable_sort_sorted _ cmp_range_tp (map (fun e => (fde_range (snd e), fst e)) entries)) as H.
  induction H as [|x l S IH F]; constructor; [exact IH|].
  eapply Forall_impl; [|exact F]. intros y L. unfold le_cmp, cmp_range, then_with in L.
  destruct (N.compare_spec (rbegin (fst x)) (rbegin (fst y))); try lia. congruence.
Qed.
Lemma table_in entries r o :
  In (r, o) (table_new entries) <-> exists f, In (o, f) entries /\ r = fde_range f.
Proof.
  unfold table_new. split.
  - intros IN. apply (Permutation_in _ (stable_sort_perm _ _)), in_map_iff in IN.
    destruct IN as ([o' f] & E & IN). injection E as <- <-. exists f. auto.
  - intros (f & IN & ->). apply (Permutation_in _ (Permutation_sym (stable_sort_perm _ _))), in_map_iff. exists (o, f). auto.
Qed.

Lemma matches_spec t a : forall i k,
  In k (matches t a i) <-> exists j r o, k = (i + j)%nat /\ nth_error t j = Some (r, o) /\ rbegin r = a.
Proof.
  induction t as [|[r o] t IH]; intros i k; cbn [matches].
  - split; [contradiction|]. intros ([|j] & r & o & _ & N & _); discriminate.
  - assert (R : In k (matches t a (S i)) <-> exists j r' o', k = (i + S j)%nat /\
        nth_error ((r, o) :: t) (S j) = Some (r', o') /\ rbegin r' = a).
    { rewrite IH. split; intros (j & r' & o' & E & N & B); exists j, r', o'; repeat split; auto; lia. }
    destruct (N.eqb_spec (rbegin r) a) as [E|E].
    + cbn [In]. rewrite R. split.
      * intros [<-|(j & r' & o' & H)]; [exists 0%nat, r, o; repeat split; auto; lia|exists (S j), r', o'; auto].
      * intros ([|j] & r' & o' & H & N & B); [left; lia|right; exists j, r', o'; auto].
    + rewrite R. split.
      * intros (j & r' & o' & H). exists (S j), r', o'. auto.
      * intros ([|j] & r' & o' & H & N & B); [|exists j, r', o'; auto]. cbn in N. injection N as <- <-. contradiction.
Qed.

Lemma insertion_split t a : by_begin t ->
  (forall j x, nth_error t j = Some x -> ((j < insertion_point t a)%nat <-> rbegin (fst x) < a)).
Proof.
  unfold by_begin, insertion_point. induction 1 as [|x t S IH F]; intros j y N; [now destruct j|].
  cbn [filter]. destruct (N.ltb_spec (rbegin (fst x)) a) as [L|L].
  - cbn [List.length]. destruct j as [|j]; cbn in N.
    + injection N as <-. split; [auto|lia].
    + rewrite <- (IH j y N). lia.
  - assert (Z : filter (fun x => rbegin (fst x) <? a) t = []).
    { clear IH N. induction t as [|z t IH]; [reflexivity|]. inversion F; subst. inversion S; subst. cbn [filter].
      destruct (N.ltb_spec (rbegin (fst z)) a); [lia|]. auto. }
    rewrite Z. cbn [List.length]. destruct j as [|j]; cbn in N.
    + injection N as <-. split; intros; lia.
    + apply nth_error_In in N. rewrite Forall_forall in F. specialize (F y N). cbn in F. split; intros; lia.
Qed.

Lemma find_sound choice t a o :
  find_fde choice t a = Some o -> exists r, In (r, o) t /\ rbegin r <= a < rend r.
Proof.
  unfold find_fde. destruct (match search choice t a with inl x => Some x | inr x => _ end) as [i|]; [|discriminate].
  destruct (nth_error t i) as [[r p]|] eqn:E; [|discriminate].
  destruct (N.leb_spec (rbegin r) a); [|discriminate]. destruct (N.ltb_spec a (rend r)); [|discriminate].
  cbn. intros [= <-]. exists r. split; [eapply nth_error_In; exact E|lia].
Qed.

(** The last entry that begins at or before [a] is the one that is looked at. *)
Lemma find_complete choice t a r o :
  by_begin t -> (forall x y b, In x t -> In y t -> rbegin (fst x) <= b < rend (fst x) ->
                   rbegin (fst y) <= b < rend (fst y) -> x = y) ->
  (forall x, In x t -> rbegin (fst x) < rend (fst x)) ->
  In (r, o) t -> rbegin r <= a < rend r -> find_fde choice t a = Some o.
Proof.
  intros S D P IN C. unfold find_fde, search.
  destruct (matches t a 0) as [|k l] eqn:M.
  - (* no entry begins at [a] *)
    apply In_nth_error in IN. destruct IN as [j J].
    assert (NE : forall i x, nth_error t i = Some x -> rbegin (fst x) <> a).
    { intros i [r' o'] N E. enough (IN : In i (matches t a 0)) by (rewrite M in IN; contradiction).
      apply matches_spec. exists i, r', o'. auto. }
    assert (LT : rbegin r < a) by (specialize (NE _ _ J); cbn in NE; lia).
    apply (insertion_split t a S j (r, o) J) in LT.
    destruct (Nat.ltb_spec 0 (insertion_point t a)) as [_|?]; [|lia].
    assert (LEN : (insertion_point t a <= List.length t)%nat).
    { unfold insertion_point. clear. induction t as [|x t IH]; cbn; [lia|].
      destruct (rbegin (fst x) <? a); cbn; lia. }
    destruct (nth_error t (insertion_point t a - 1)) as [[r' o']|] eqn:N; [|apply nth_error_None in N; lia].
    assert (B : rbegin r' < a) by (apply (insertion_split t a S _ _ N); lia).
    (* the entry found begins at or after [r]'s begin, and [r] covers [a] *)
    assert (E : (r', o') = (r, o)).
    { assert (LE : rbegin r <= rbegin r').
      { destruct (Nat.eq_dec j (insertion_point t a - 1)) as [->|NJ]; [rewrite J in N; injection N as <- _; lia|].
        assert (JL : (j < insertion_point t a - 1)%nat) by lia. clear - S J N JL. revert j J JL N.
        generalize (insertion_point t a - 1)%nat as i. intros i j. revert i.
        induction S as [|x t S IH F] in j |- *; intros i J JL N; [destruct j; discriminate|].
        destruct i as [|i]; [lia|]. destruct j as [|j]; cbn in J, N.
        - injection J as ->. apply nth_error_In in N. rewrite Forall_forall in F. apply (F _ N).
        - apply (IH j i); auto. lia. }
      apply (D (r', o') (r, o) (rbegin r')).
      - eapply nth_error_In; exact N.
      - eapply nth_error_In; exact J.
      - cbn. specialize (P (r', o') (nth_error_In _ _ N)). cbn in P. lia.
      - cbn. lia. }
    injection E as -> ->.
    destruct (N.leb_spec (rbegin r) a); [|lia]. destruct (N.ltb_spec a (rend r)); [reflexivity|lia].
  - assert (K : In (nth (choice a mod List.length (k :: l)) (k :: l) k) (matches t a 0)).
    { rewrite M. apply nth_In. apply Nat.mod_upper_bound. discriminate. }
    apply matches_spec in K. destruct K as (j & r' & o' & -> & N & B). cbn [Nat.add]. rewrite N.
    assert (E : (r', o') = (r, o)).
    { apply (D (r', o') (r, o) a); [eapply nth_error_In; exact N|exact IN| |exact C].
      specialize (P (r', o') (nth_error_In _ _ N)). cbn in *. lia. }
    injection E as -> ->.
    destruct (N.leb_spec (rbegin r) a); [|lia]. destruct (N.ltb_spec a (rend r)); [reflexivity|lia].
Qed.

Lemma proper_range f a : proper f -> (rbegin (fde_range f) <= a < rend (fde_range f) <-> covers f a).
Proof.
  intros [P Q]. unfold fde_range, covers, add64, wrap64. cbn [rbegin rend].
  rewrite N.mod_small by (unfold two64, u64_max in *; lia). reflexivity.
Qed.
Lemma covers_range f a : rbegin (fde_range f) <= a < rend (fde_range f) -> covers f a.
Proof.
  unfold fde_range, covers, add64. cbn [rbegin rend]. pose proof (wrap64_le (fd_address f + fd_len f)). lia.
Qed.

Lemma find_entry choice entries o f a :
  disjoint_fdes entries -> (forall e, In e entries -> proper (snd e)) ->
  In (o, f) entries -> covers f a -> find_fde choice (table_new entries) a = Some o.
Proof.
  intros D P IN C. pose proof (P _ IN) as PF. cbn in PF.
  apply (find_complete choice _ a (fde_range f) o); [apply table_sorted| | | |now apply proper_range].
  - intros [r1 o1] [r2 o2] b I1 I2 B1 B2. apply table_in in I1, I2.
    destruct I1 as (f1 & I1 & ->), I2 as (f2 & I2 & ->). cbn [fst] in *.
    assert (E : (o1, f1) = (o2, f2)).
    { apply (D _ _ b I1 I2); cbn; [apply (proper_range _ _ (P _ I1))|apply (proper_range _ _ (P _ I2))]; assumption. }
    injection E as -> ->. reflexivity.
  - intros [r1 o1] I1. apply table_in in I1. destruct I1 as (f1 & I1 & ->). cbn [fst].
    specialize (P _ I1). cbn in P. destruct P as [L U]. unfold fde_range, add64, wrap64. cbn.
    rewrite N.mod_small by (unfold two64, u64_max in *; lia). lia.
  - apply table_in. exists f. auto.
Qed.
Lemma find_none choice entries a :
  (forall e, In e entries -> ~ covers (snd e) a) -> find_fde choice (table_new entries) a = None.
Proof.
  intros NO. destruct (find_fde choice (table_new entries) a) as [o|] eqn:E; [|reflexivity]. exfalso.
  apply find_sound in E. destruct E as (r & IN & B). apply table_in in IN. destruct IN as (f & IN & ->).
  apply (NO _ IN). now apply covers_range.
Qed.
Lemma from_offset_in s o f :
  NoDup (map fst s) -> In (o, f) s -> from_offset s o = Some f.
Proof.
  induction s as [|[p g] s IH]; [contradiction|]. cbn [map fst from_offset]. intros ND [E|IN].
  - injection E as -> ->. now rewrite N.eqb_refl.
  - inversion ND; subst. destruct (N.eqb_spec p o) as [->|_]; [|auto].
    exfalso. apply H1. now apply (in_map fst) in IN.
Qed.

(** ** Rows *)

Lemma as_i64_residue z : residue (as_i64 z) = residue z.
Proof.
  unfold residue, as_i64. rewrite Zminus_mod_idemp_l. f_equal. lia.
Qed.
Lemma as_i64_mul x y : residue (as_i64 (as_i64 x * y)) = residue (x * y).
Proof.
  rewrite as_i64_residue. unfold residue. rewrite <- Zmult_mod_idemp_l. change (as_i64 x mod 2 ^ 64)%Z with (residue (as_i64 x)).
  rewrite as_i64_residue. unfold residue. now rewrite Zmult_mod_idemp_l.
Qed.
Lemma convert_means c i loc d loc' :
  convert_cfi c i loc = (Some d, loc') -> silent i = false /\ loc' = loc /\ means (ci_data_align c) i d.
Proof.
  destruct i; cbn [convert_cfi]; intros [= <- <-]; (split; [reflexivity|split; [reflexivity|]]); intros initial [u stack];
    cbn [run_directive run_instruction]; unfold set_cfa; rewrite ?as_i64_mul, ?as_i64_residue; reflexivity.
Qed.
Lemma convert_silent c i loc loc' :
  convert_cfi c i loc = (None, loc') -> silent i = true.
Proof. destruct i; cbn; intros [= <-]; reflexivity. Qed.

Lemma advance_app l m : advance (l ++ m) = advance l + advance m.
Proof. unfold advance. induction l as [|x l IH]; cbn; [reflexivity|]. rewrite IH. lia. Qed.

Lemma at_step start c before i loc :
  word i -> at_location start (ci_code_align c) before loc ->
  at_location start (ci_code_align c) (before ++ [i]) (snd (convert_cfi c i loc)).
Proof.
  intros W A.
  assert (STAY : is_set i = false -> delta i = 0 -> snd (convert_cfi c i loc) = loc ->
    at_location start (ci_code_align c) (before ++ [i]) (snd (convert_cfi c i loc))).
  { intros NS DZ ->. destruct A as [before NO|before a after NO].
    - replace (advance before) with (advance (before ++ [i])) by (rewrite advance_app; unfold advance; cbn; lia).
      apply at_start. intros j. rewrite in_app_iff. intros [J|[<-|[]]]; auto.
    - replace (advance after) with (advance (after ++ [i])) by (rewrite advance_app; unfold advance; cbn; lia).
      rewrite <- app_assoc, <- app_comm_cons. apply at_set. intros j. rewrite in_app_iff. intros [J|[<-|[]]]; auto. }
  destruct i as [a|n| | | | | | | | | | | | | | | | | ]; try (apply STAY; reflexivity).
  - cbn [convert_cfi snd]. cbn in W. rewrite <- (N.mod_small a (2 ^ 64) W) at 2.
    replace a with (a + advance [] * ci_code_align c) at 2 by (unfold advance; cbn; lia).
    apply at_set. intros j [].
  - cbn [convert_cfi snd]. unfold add64, mul64, wrap64. change two64 with (2 ^ 64).
    rewrite N.add_mod_idemp_r by discriminate. destruct A as [before NO|before a after NO].
    + rewrite N.add_mod_idemp_l by discriminate.
      replace (start + advance before * ci_code_align c + n * ci_code_align c) with
        (start + advance (before ++ [IAdvanceLoc n]) * ci_code_align c) by (rewrite advance_app; unfold advance; cbn; lia).
      apply at_start. intros j. rewrite in_app_iff. intros [J|[<-|[]]]; auto.
    + rewrite N.add_mod_idemp_l by discriminate.
      replace (a + advance after * ci_code_align c + n * ci_code_align c) with
        (a + advance (after ++ [IAdvanceLoc n]) * ci_code_align c) by (rewrite advance_app; unfold advance; cbn; lia).
      rewrite <- app_assoc, <- app_comm_cons. apply at_set. intros j. rewrite in_app_iff. intros [J|[<-|[]]]; auto.
Qed.

Lemma convert_listed c (label : list instruction -> opt64 -> Prop) lab start : forall l before loc,
  (forall before loc, at_location start (ci_code_align c) before loc -> label before (lab loc)) ->
  Forall word l -> at_location start (ci_code_align c) before loc ->
  listed label (ci_data_align c) before l (convert_all c lab l loc).
Proof.
  induction l as [|i l IH]; intros before loc L W A; [constructor|].
  inversion W; subst. cbn [convert_all]. pose proof (at_step start c before i loc H1 A) as A'.
  destruct (convert_cfi c i loc) as [[d|] loc'] eqn:E; cbn [snd] in A'.
  - destruct (convert_means _ _ _ _ _ E) as (S & -> & M). apply listed_row; auto.
  - apply listed_silent; [eapply convert_silent; exact E|auto].
Qed.
Lemma convert_unlabelled c : forall l before loc,
  listed (fun _ a => a = opt64_none) (ci_data_align c) before l (convert_all c (fun _ => opt64_none) l loc).
Proof.
  induction l as [|i l IH]; intros before loc; [constructor|]. cbn [convert_all].
  destruct (convert_cfi c i loc) as [[d|] loc'] eqn:E.
  - destruct (convert_means _ _ _ _ _ E) as (S & -> & M). now apply listed_row.
  - apply listed_silent; [eapply convert_silent; exact E|auto].
Qed.
Lemma last_set_unique a after b after' : forall before before',
  (forall i, In i after -> is_set i = false) -> (forall i, In i after' -> is_set i = false) ->
  before ++ ISetLoc a :: after = before' ++ ISetLoc b :: after' -> a = b /\ after = after'.
Proof.
  induction before as [|x before IH]; intros [|y before'] NO NO' E; cbn in E.
  - injection E as -> ->. auto.
  - injection E as E0 E. specialize (NO (ISetLoc b)). rewrite E in NO.
    discriminate NO. apply in_or_app. right. now left.
  - injection E as E0 E. specialize (NO' (ISetLoc a)).
    rewrite <- E in NO'. discriminate NO'. apply in_or_app. right. now left.
  - injection E as -> E. now apply (IH before').
Qed.
Lemma at_location_unique start align before a b :
  at_location start align before a -> at_location start align before b -> a = b.
Proof.
  intros A B. destruct A as [l NO|l x after NO].
  - inversion B as [m NO' E|m x after NO' E]; subst; [reflexivity|]. specialize (NO (ISetLoc x)).
    discriminate NO. apply in_or_app. right. now left.
  - inversion B as [m NO' E|m y after' NO' E].
    + specialize (NO' (ISetLoc x)). discriminate NO'. apply in_or_app. right. now left.
    + destruct (last_set_unique _ _ _ _ _ _ NO' NO E) as [-> ->]. reflexivity.
Qed.
Lemma at_begin start align : start < 2 ^ 64 -> at_location start align [] start.
Proof.
  intros L. rewrite <- (N.mod_small start (2 ^ 64) L) at 2.
  replace start with (start + advance [] * align) at 2 by (unfold advance; cbn; lia).
  apply at_start. intros i [].
Qed.

(** ** Order of rows *)

Lemma convert_sorted c : forall l loc,
  (forall i, In i l -> is_set i = false) -> loc + advance l * ci_code_align c < u64_max ->
  Forall (fun x => loc <= fst x <= loc + advance l * ci_code_align c) (convert_all c (fun x => x) l loc) /\
  by_address (convert_all c (fun x => x) l loc).
Proof.
  induction l as [|i l IH]; intros loc NO B; [split; constructor|].
  assert (AD : advance (i :: l) = delta i + advance l) by reflexivity. rewrite AD in *.
  assert (LOC : snd (convert_cfi c i loc) = loc + delta i * ci_code_align c).
  { destruct i as [a|n| | | | | | | | | | | | | | | | | ]; cbn [convert_cfi snd delta];
      try (now rewrite N.add_0_r); [specialize (NO (ISetLoc a) (or_introl eq_refl)); discriminate|].
    unfold add64, mul64, wrap64. cbn [delta] in B.
    assert (n * ci_code_align c <= (n + advance l) * ci_code_align c) by (apply N.mul_le_mono_r; lia).
    rewrite (N.mod_small (n * _)) by (unfold two64, u64_max in *; lia). apply N.mod_small. unfold two64, u64_max in *. lia. }
  cbn [convert_all]. destruct (convert_cfi c i loc) as [d loc'] eqn:E. cbn [snd] in LOC. subst loc'.
  rewrite N.mul_add_distr_r in B |- *. remember (delta i * ci_code_align c) as p eqn:P. clear P. remember (advance l * ci_code_align c) as q eqn:Q.
  destruct (IH (loc + p)) as [F S]; [intros; apply NO; now right|lia|]. rewrite <- ?Q in F. clear Q.
  assert (F' : Forall (fun x : cfi => loc <= fst x <= loc + (p + q))
    (convert_all c (fun x => x) l (loc + p))).
  { eapply Forall_impl; [|exact F]. intros x. destruct x as [x e]. cbn [fst]. unfold opt64 in *. lia. }
  destruct d as [d|]; [|split; assumption].
  split; constructor; auto; [cbn [fst]; lia|].
  eapply Forall_impl; [|exact F]. intros [x e]. cbn [fst]. intros [L R]. right. cbn [fst]. unfold opt64_none, opt64 in *. split; lia.
Qed.

Lemma convert_none c : forall l loc, Forall (fun x => fst x = opt64_none) (convert_all c (fun _ => opt64_none) l loc).
Proof.
  induction l as [|i l IH]; intros loc; [constructor|]. cbn [convert_all].
  destruct (convert_cfi c i loc) as [[d|] loc']; [constructor; auto|auto].
Qed.
Lemma by_address_app l m :
  by_address l -> by_address m -> (forall x y, In x l -> In y m -> row_le x y) -> by_address (l ++ m).
Proof.
  unfold by_address. induction 1 as [|x l S IH F]; intros M X; [exact M|]. cbn. constructor.
  - apply IH; auto. intros; apply X; auto. now right.
  - apply Forall_app. split; [exact F|]. apply Forall_forall. intros y IN. apply X; [now left|exact IN].
Qed.
Lemma by_address_none l : Forall (fun x => fst x = opt64_none) l -> by_address l.
Proof.
  induction 1 as [|x l E F IH]; constructor; auto. apply Forall_forall. intros; now left.
Qed.
Lemma fde_cfi_sorted f :
  (forall i, In i (fd_instructions f) -> is_set i = false) ->
  advance (fd_instructions f) * ci_code_align (fd_cie f) <= fd_len f ->
  fd_address f + fd_len f < u64_max -> by_address (fde_cfi f).
Proof.
  intros NO B U. unfold fde_cfi.
  destruct (convert_sorted (fd_cie f) (fd_instructions f) (fd_address f) NO) as [F S]; [lia|].
  assert (PRE : forall m, by_address m -> forall l, Forall (fun x : cfi => fst x = opt64_none) l -> by_address (l ++ m)).
  { intros m M l L. apply by_address_app; [now apply by_address_none|exact M|].
    intros x y X _. rewrite Forall_forall in L. left. now apply L. }
  apply PRE; [|repeat constructor].
  apply PRE; [|destruct (fd_personality f); repeat constructor].
  apply PRE; [|destruct (fd_lsda f); repeat constructor].
  apply PRE; [|destruct (fd_signal f); repeat constructor].
  apply PRE; [|apply convert_none].
  apply by_address_app; [exact S|repeat constructor|].
  intros [x e] y X [<-|[]]. rewrite Forall_forall in F. specialize (F _ X). cbn [fst] in F. right. cbn [fst].
  unfold add64, wrap64. rewrite N.mod_small by (unfold two64, u64_max in *; lia). unfold opt64_none, opt64 in *. split; lia.
Qed.

(** ** Listing with instructions *)

Section Listing.
  Context {insn : Type}.
  Variable address : insn -> opt64.
  Local Notation lf := (listing_fuel address).

  Lemma listing_rows : forall fuel insns cfis, (List.length insns + List.length cfis <= fuel)%nat ->
    cfi_rows (lf fuel insns cfis) = cfis /\ insn_rows (lf fuel insns cfis) = insns.
  Proof.
    induction fuel as [|fuel IH]; intros insns cfis L.
    - destruct insns, cfis; cbn in L; try lia. auto.
    - cbn [listing_fuel]. destruct insns as [|i insns], cfis as [|c cfis]; cbn [List.length] in L.
      + auto.
      + destruct (IH [] cfis) as [A B]; [cbn; lia|]. cbn. unfold cfi_rows, insn_rows in *. now rewrite A, B.
      + destruct (IH insns []) as [A B]; [cbn; lia|]. cbn. unfold cfi_rows, insn_rows in *. now rewrite A, B.
      + destruct (cfi_first address c i).
        * destruct (IH (i :: insns) cfis) as [A B]; [cbn; lia|]. cbn. unfold cfi_rows, insn_rows in *. now rewrite A, B.
        * destruct (IH insns (c :: cfis)) as [A B]; [cbn; lia|]. cbn. unfold cfi_rows, insn_rows in *. now rewrite A, B.
  Qed.

  Lemma in_cfi_rows l (c : cfi) : In (RCfi c) l -> In c (cfi_rows (insn := insn) l).
  Proof. intros IN. apply in_flat_map. exists (RCfi c). split; [exact IN|now left]. Qed.
  Lemma in_insn_rows l (i : insn) : In (RInsn i) l -> In i (insn_rows l).
  Proof. intros IN. apply in_flat_map. exists (RInsn i). split; [exact IN|now left]. Qed.

  Lemma first_true c i : cfi_first address c i = true -> fst c = opt64_none \/ fst c <= address i.
  Proof.
    unfold cfi_first, opt64_is_none, opt64_cmp. destruct (N.eqb_spec (fst c) opt64_none); [auto|].
    destruct (N.compare_spec (fst c) (address i)); cbn; try discriminate; right; lia.
  Qed.
  Lemma first_false c i : cfi_first address c i = false -> fst c <> opt64_none /\ address i < fst c.
  Proof.
    unfold cfi_first, opt64_is_none, opt64_cmp. destruct (N.eqb_spec (fst c) opt64_none); [discriminate|].
    destruct (N.compare_spec (fst c) (address i)); cbn; try discriminate; auto.
  Qed.

  Lemma listing_order : forall fuel insns cfis, (List.length insns + List.length cfis <= fuel)%nat ->
    StronglySorted (fun i j => address i <= address j) insns -> by_address cfis ->
    (forall pre c mid i post, lf fuel insns cfis = pre ++ RCfi c :: mid ++ RInsn i :: post ->
       fst c = opt64_none \/ fst c <= address i) /\
    (forall pre c mid i post, lf fuel insns cfis = pre ++ RInsn i :: mid ++ RCfi c :: post ->
       fst c <> opt64_none /\ address i < fst c).
  Proof.
    induction fuel as [|fuel IH]; intros insns cfis L SI SC.
    - split; intros [|]; discriminate.
    - assert (HEAD : forall c cfis', cfis = c :: cfis' ->
        (forall i, In i insns -> fst c = opt64_none \/ fst c <= address i) ->
        let out := RCfi c :: lf fuel insns cfis' in
        (forall pre c mid i post, out = pre ++ RCfi c :: mid ++ RInsn i :: post ->
           fst c = opt64_none \/ fst c <= address i) /\
        (forall pre c mid i post, out = pre ++ RInsn i :: mid ++ RCfi c :: post ->
           fst c <> opt64_none /\ address i < fst c)).
      { intros c cfis' -> H out. cbn [List.length] in L. inversion SC; subst.
        assert (L' : (List.length insns + List.length cfis' <= fuel)%nat) by lia.
        destruct (IH insns cfis' L' SI H2) as [A B]. subst out. split.
        - intros [|x pre] c' mid i post E; cbn in E; injection E as E1 E; subst.
          + apply H. rewrite <- (proj2 (listing_rows fuel insns cfis' L')). apply in_insn_rows. rewrite E.
            apply in_or_app. right. now left.
          + eapply A; exact E.
        - intros [|x pre] c' mid i post E; cbn in E; [discriminate|]. injection E as E1 E; subst. eapply B; exact E. }
      assert (NEXT : forall i insns', insns = i :: insns' ->
        (forall c, In c cfis -> fst c <> opt64_none /\ address i < fst c) ->
        let out := RInsn i :: lf fuel insns' cfis in
        (forall pre c mid i post, out = pre ++ RCfi c :: mid ++ RInsn i :: post ->
           fst c = opt64_none \/ fst c <= address i) /\
        (forall pre c mid i post, out = pre ++ RInsn i :: mid ++ RCfi c :: post ->
           fst c <> opt64_none /\ address i < fst c)).
      { intros i insns' -> H out. cbn [List.length] in L. inversion SI; subst.
        assert (L' : (List.length insns' + List.length cfis <= fuel)%nat) by lia.
        destruct (IH insns' cfis L' H2 SC) as [A B]. subst out. split.
        - intros [|x pre] c' mid j post E; cbn in E; [discriminate|]. injection E as E1 E; subst. eapply A; exact E.
        - intros [|x pre] c' mid j post E; cbn in E; injection E as E1 E; subst.
          + apply H. rewrite <- (proj1 (listing_rows fuel insns' cfis L')). apply in_cfi_rows. rewrite E.
            apply in_or_app. right. now left.
          + eapply B; exact E. }
      cbn [listing_fuel]. destruct insns as [|i insns], cfis as [|c cfis].
      + split; intros [|]; discriminate.
      + apply (HEAD c cfis eq_refl). intros j [].
      + apply (NEXT i insns eq_refl). intros c [].
      + destruct (cfi_first address c i) eqn:E.
        * apply (HEAD c cfis eq_refl). apply first_true in E. intros j J.
          destruct E as [E|E]; [now left|]. right. destruct J as [<-|J]; [exact E|].
          inversion SI as [|? ? _ F]; subst. rewrite Forall_forall in F. specialize (F j J). cbn in F. lia.
        * apply (NEXT i insns eq_refl). apply first_false in E. intros d D. destruct D as [<-|D]; [exact E|].
          inversion SC as [|? ? _ F]; subst. rewrite Forall_forall in F. specialize (F d D).
          destruct F as [F|[F G]]; [exfalso; destruct E; contradiction|]. split; [exact F|lia].
  Qed.

  Lemma listing_last : forall fuel insns cfis c, (List.length insns + List.length (cfis ++ [c]) <= fuel)%nat ->
    (forall i, In i insns -> cfi_first address c i = false) ->
    exists rows, lf fuel insns (cfis ++ [c]) = rows ++ [RCfi c] /\ insn_rows rows = insns.
  Proof.
    induction fuel as [|fuel IH]; intros insns cfis c L H.
    - rewrite app_length in L. cbn in L. lia.
    - rewrite app_length in L. cbn [List.length] in L. cbn [listing_fuel].
      assert (IH' : forall insns' cfis', (forall i, In i insns' -> In i insns) ->
        (List.length insns' + List.length cfis' + 1 <= fuel)%nat ->
        exists rows, lf fuel insns' (cfis' ++ [c]) = rows ++ [RCfi c] /\ insn_rows rows = insns').
      { intros insns' cfis' S L'. apply IH; [rewrite app_length; cbn; lia|auto]. }
      destruct insns as [|i insns], cfis as [|d cfis]; cbn [app List.length] in *.
      + exists []. split; [|reflexivity]. destruct fuel; reflexivity.
      + destruct (IH' [] cfis) as (rows & E & R); [auto|cbn; lia|]. exists (RCfi d :: rows). rewrite E. split; [reflexivity|exact R].
      + rewrite (H i (or_introl eq_refl)). destruct (IH' insns []) as (rows & E & R); [auto using in_cons|cbn; lia|].
        exists (RInsn i :: rows). cbn [app] in E. rewrite E. split; [reflexivity|]. cbn. unfold insn_rows in R. now rewrite R.
      + destruct (cfi_first address d i).
        * destruct (IH' (i :: insns) cfis) as (rows & E & R); [auto|cbn; lia|]. exists (RCfi d :: rows). rewrite E. split; [reflexivity|exact R].
        * destruct (IH' insns (d :: cfis)) as (rows & E & R); [auto using in_cons|cbn; lia|].
          exists (RInsn i :: rows). cbn [app] in E. rewrite E. split; [reflexivity|]. cbn. unfold insn_rows in R. now rewrite R.
  Qed.

  Lemma listing_entry insns f :
    StronglySorted (fun i j => address i <= address j) insns ->
    (forall i, In i (fd_instructions f) -> is_set i = false) ->
    advance (fd_instructions f) * ci_code_align (fd_cie f) <= fd_len f ->
    fd_address f + fd_len f < u64_max ->
    (forall i, In i insns -> address i < fd_address f + fd_len f) ->
    exists rows,
      listing address insns (fde_cfi f) =
        RCfi (opt64_none, StartProc) :: rows ++ [RCfi (fd_address f + fd_len f, EndProc)] /\
      insn_rows rows = insns.
  Proof.
    intros SI NO B U H. unfold listing.
    assert (E : exists rest, fde_cfi f = (opt64_none, StartProc) :: rest ++ [(fd_address f + fd_len f, EndProc)]).
    { unfold fde_cfi, add64, wrap64. rewrite N.mod_small by (unfold two64, u64_max in *; lia).
      eexists. cbn [app]. rewrite !app_assoc. reflexivity. }
    destruct E as (rest & E). rewrite E. cbn [List.length]. rewrite Nat.add_succ_r. cbn [listing_fuel].
    destruct (listing_last (List.length insns + List.length (rest ++ [(fd_address f + fd_len f, EndProc)])) insns rest
      (fd_address f + fd_len f, EndProc) (le_n _)) as (rows & R & I).
    - intros i IN. specialize (H i IN). unfold cfi_first, opt64_is_none, opt64_cmp. cbn [fst].
      destruct (N.eqb_spec (fd_address f + fd_len f) opt64_none) as [X|_]; [unfold opt64_none in X; lia|].
      destruct (N.compare_spec (fd_address f + fd_len f) (address i)); try reflexivity; unfold opt64 in *; lia.
    - exists rows. split; [|exact I]. destruct insns as [|i insns]; [exact (f_equal (cons _) R)|].
      unfold cfi_first at 1. cbn [fst]. unfold opt64_is_none. rewrite N.eqb_refl. cbn [orb]. exact (f_equal (cons _) R).
  Qed.
End Listing.
