(** Proofs about reading: relocated words and linked sections. *)
From Coq Require Import List Arith NArith ZArith Bool String Lia.
From Verif Require Import Base ReadModel ReadSpec.
Import ListNotations.
Local Open Scope N_scope.

(** ** Which relocation counts *)

Lemma get_snoc m e o :
  reloc_get (m ++ [e]) o = if Nat.eqb (re_offset e) o then Some e else reloc_get m o.
Proof. unfold reloc_get. rewrite fold_left_app. reflexivity. Qed.

Lemma adds_snoc sa rs r :
  add_relocations sa (rs ++ [r]) =
  add_relocations sa rs ++ match reloc_insertion sa r with Some e => [e] | None => [] end.
Proof. unfold add_relocations. rewrite flat_map_app. cbn [flat_map]. now rewrite app_nil_r. Qed.

Definition is_relative (k : reloc_kind) : bool := match k with RelRelative => true | _ => false end.

Lemma applies_iff r t rel :
  applies r t rel <->
  target_address (rl_target r) = Some t /\
  rl_kind r = if rel then RelRelative else RelAbsolute.
Proof.
  destruct r as [o n tg k z i]. cbn. split.
  - intros A. inversion A; subst; auto.
  - intros [T K]. destruct tg as [[a|]|[a|]|]; cbn in T; try discriminate; injection T as <-;
      destruct rel; subst k; constructor.
Qed.

Lemma inserted_applies sa r e :
  reloc_insertion sa r = Some e ->
  re_offset e = rl_offset r /\ re_implicit e = rl_implicit r /\ applied r.
Proof.
  unfold reloc_insertion. intros H.
  destruct (target_address (rl_target r)) as [t|] eqn:T; [|discriminate].
  destruct (rl_kind r) eqn:K; inversion H; subst e; cbn;
    (split; [reflexivity|]); (split; [reflexivity|]); exists t.
  - exists false. apply applies_iff. auto.
  - exists true. apply applies_iff. auto.
Qed.

Lemma not_inserted sa r : reloc_insertion sa r = None -> ~ applied r.
Proof.
  unfold reloc_insertion. intros H (t & rel & A). apply applies_iff in A as [T K].
  rewrite T in H. destruct rel; rewrite K in H; discriminate.
Qed.

Lemma applied_dec r : applied r \/ ~ applied r.
Proof.
  destruct (reloc_insertion 0 r) as [e|] eqn:E.
  - left. now apply inserted_applies in E.
  - right. now apply (not_inserted 0).
Qed.

(** ** Arithmetic modulo 2^64 *)

Lemma two64_z : Z.of_N two64 = (2 ^ 64)%Z.
Proof. reflexivity. Qed.

Lemma wrap64_z x : Z.of_N (wrap64 x) = (Z.of_N x mod 2 ^ 64)%Z.
Proof. unfold wrap64. rewrite N2Z.inj_mod. reflexivity. Qed.

Lemma as_u64_z z : Z.of_N (as_u64 z) = (z mod 2 ^ 64)%Z.
Proof.
  unfold as_u64. rewrite Z2N.id; [reflexivity|]. apply Z.mod_pos_bound. reflexivity.
Qed.

Lemma add64_z x y : Z.of_N (add64 x y) = ((Z.of_N x + Z.of_N y) mod 2 ^ 64)%Z.
Proof. unfold add64. rewrite wrap64_z, N2Z.inj_add. reflexivity. Qed.

Lemma sub64_z x y : Z.of_N (sub64 x y) = ((Z.of_N x - Z.of_N y) mod 2 ^ 64)%Z.
Proof.
  unfold sub64. rewrite wrap64_z.
  assert (L : wrap64 y < two64) by (apply N.mod_lt; discriminate).
  rewrite N2Z.inj_sub by lia. rewrite N2Z.inj_add, wrap64_z, two64_z.
  rewrite Zminus_mod_idemp_r.
  replace (Z.of_N x + 2 ^ 64 - Z.of_N y)%Z with (Z.of_N x - Z.of_N y + 1 * 2 ^ 64)%Z by lia.
  apply Z_mod_plus_full.
Qed.

Lemma sub64_of x y z :
  Z.of_N x = (z mod 2 ^ 64)%Z -> Z.of_N (sub64 x y) = ((z - Z.of_N y) mod 2 ^ 64)%Z.
Proof. intros H. rewrite sub64_z, H. apply Zminus_mod_idemp_l. Qed.

Lemma inserted_value sa r e stored :
  reloc_insertion sa r = Some e ->
  stored < 2 ^ 64 ->
  field_value sa r stored (if re_implicit e then add64 stored (re_addend e) else re_addend e).
Proof.
  intros H S. pose proof (inserted_applies _ _ _ H) as (_ & I & t & rel & A).
  exists t, rel. split; [exact A|]. apply applies_iff in A as [T K]. rewrite I.
  unfold reloc_insertion in H. rewrite T in H.
  assert (V : Z.of_N (re_addend e) =
    ((Z.of_N t + rl_addend r - (if rel then Z.of_N sa + Z.of_nat (rl_offset r) else 0)) mod 2 ^ 64)%Z).
  { assert (Q : Z.of_N (add64 t (as_u64 (rl_addend r))) = ((Z.of_N t + rl_addend r) mod 2 ^ 64)%Z).
    { rewrite add64_z, as_u64_z. apply Zplus_mod_idemp_r. }
    destruct rel; rewrite K in H; injection H as <-; cbn [re_addend].
    - erewrite sub64_of by (apply sub64_of, Q). f_equal. rewrite nat_N_Z. lia.
    - rewrite Q. f_equal. lia. }
  destruct (rl_implicit r); [|rewrite V; f_equal; lia].
  rewrite add64_z, V, Zplus_mod_idemp_r. f_equal. lia.
Qed.

Lemma relocate_value sa rs o stored :
  stored < 2 ^ 64 -> word_value sa rs o stored (relocate (add_relocations sa rs) o stored).
Proof.
  intros S. induction rs as [|r rs IH] using rev_ind.
  - apply wv_plain; [intros r []|reflexivity].
  - rewrite adds_snoc. destruct (reloc_insertion sa r) as [e|] eqn:E.
    + pose proof (inserted_applies _ _ _ E) as (O & I & A).
      unfold relocate. rewrite get_snoc. destruct (Nat.eqb_spec (re_offset e) o) as [Q|Q].
      * apply (wv_reloc _ _ _ _ _ rs r []); [reflexivity|congruence|intros x []|].
        now apply inserted_value.
      * fold (relocate (add_relocations sa rs) o stored).
        destruct IH as [N V|before x after B X L V].
        -- apply wv_plain; [|exact V]. intros y Iy Ay. apply in_app_iff in Iy as [Iy|[<-|[]]]; auto; congruence.
        -- apply (wv_reloc _ _ _ _ _ before x (after ++ [r])); [rewrite B, <- app_assoc; reflexivity|exact X| |exact V].
           intros y Iy Ay. apply in_app_iff in Iy as [Iy|[<-|[]]]; auto; congruence.
    + rewrite app_nil_r. pose proof (not_inserted _ _ E) as A.
      destruct IH as [N V|before x after B X L V].
      * apply wv_plain; [|exact V]. intros y Iy Ay. apply in_app_iff in Iy as [Iy|[<-|[]]]; auto; contradiction.
      * apply (wv_reloc _ _ _ _ _ before x (after ++ [r])); [rewrite B, <- app_assoc; reflexivity|exact X| |exact V].
        intros y Iy Ay. apply in_app_iff in Iy as [Iy|[<-|[]]]; auto; contradiction.
Qed.

Lemma applies_unique r t rel t' rel' : applies r t rel -> applies r t' rel' -> t = t' /\ rel = rel'.
Proof.
  rewrite !applies_iff. intros [T K] [T' K']. rewrite T in T'. injection T' as ->. split; [reflexivity|].
  rewrite K in K'. destruct rel, rel'; congruence.
Qed.

Lemma field_value_unique sa r stored v v' :
  field_value sa r stored v -> field_value sa r stored v' -> v = v'.
Proof.
  intros (t & rel & A & V) (t' & rel' & A' & V'). destruct (applies_unique _ _ _ _ _ A A') as [-> ->].
  apply N2Z.inj. congruence.
Qed.

Lemma field_value_applied sa r stored v : field_value sa r stored v -> applied r.
Proof. intros (t & rel & A & _). now exists t, rel. Qed.

Lemma field_value_exists sa r stored : applied r -> exists v, field_value sa r stored v.
Proof.
  intros (t & rel & A).
  exists (as_u64 (Z.of_N t + rl_addend r + (if rl_implicit r then Z.of_N stored else 0)
        - (if rel then Z.of_N sa + Z.of_nat (rl_offset r) else 0))).
  exists t, rel. split; [exact A|]. apply as_u64_z.
Qed.

(** ** Words *)

Definition sum_of (l : list N) : N := fold_right N.add 0 l.

Lemma sum_scale k l : sum_of (map (fun x => k * x) l) = k * sum_of l.
Proof. unfold sum_of. induction l as [|x l IH]; cbn [map fold_right]; [lia|]. rewrite IH. lia. Qed.

Lemma word_at_little s o n :
  word_at false s o (S n) = nth o s 0 + 256 * word_at false s (S o) n.
Proof.
  unfold word_at. cbn [seq map fold_right]. rewrite Nat.add_0_r. change (256 ^ N.of_nat 0) with 1.
  rewrite N.mul_1_r. f_equal. fold (sum_of (map (fun i => nth (o + i) s 0 * 256 ^ N.of_nat i) (seq 1 n))).
  rewrite <- seq_shift, map_map.
  fold (sum_of (map (fun i => nth (S o + i) s 0 * 256 ^ N.of_nat i) (seq 0 n))).
  rewrite <- sum_scale, map_map. f_equal. apply map_ext. intros i.
  replace (o + S i)%nat with (S o + i)%nat by lia. rewrite Nat2N.inj_succ, N.pow_succ_r'. lia.
Qed.

Lemma word_at_big s o n :
  word_at true s o (S n) = nth o s 0 * 256 ^ N.of_nat n + word_at true s (S o) n.
Proof.
  unfold word_at. cbn [seq map fold_right]. rewrite Nat.add_0_r.
  replace (S n - 1 - 0)%nat with n by lia. f_equal.
  rewrite <- seq_shift, map_map. f_equal. apply map_ext. intros i.
  replace (o + S i)%nat with (S o + i)%nat by lia. do 3 f_equal. lia.
Qed.

Lemma little_endian_app l b : little_endian (l ++ [b]) = little_endian l + b * 256 ^ N.of_nat (List.length l).
Proof.
  induction l as [|x l IH]; cbn [app little_endian List.length].
  - change (256 ^ N.of_nat 0) with 1. lia.
  - rewrite IH, Nat2N.inj_succ, N.pow_succ_r'. lia.
Qed.

Lemma skipn_nth {A} (s : list A) o d : (o < List.length s)%nat -> skipn o s = nth o s d :: skipn (S o) s.
Proof.
  revert o. induction s as [|x s IH]; intros o L; [cbn in L; lia|].
  destruct o as [|o]; [reflexivity|]. cbn [skipn nth]. apply IH. cbn in L. lia.
Qed.

Lemma word_eq be s o n :
  (o + n <= List.length s)%nat -> word be (bytes_at s o n) = word_at be s o n.
Proof.
  unfold word, bytes_at. revert o. induction n as [|n IH]; intros o L; [now destruct be|].
  rewrite (skipn_nth s o 0) by lia. cbn [firstn]. destruct be.
  - cbn [rev]. rewrite little_endian_app, rev_length, firstn_length, skipn_length.
    replace (Nat.min n (List.length s - S o)) with n by lia. rewrite word_at_big, N.add_comm. f_equal.
    apply IH. lia.
  - cbn [little_endian]. rewrite word_at_little. f_equal. f_equal. apply IH. lia.
Qed.

Lemma word_at_ext be s s' o n :
  (forall i, (o <= i < o + n)%nat -> nth i s 0 = nth i s' 0) -> word_at be s o n = word_at be s' o n.
Proof.
  intros H. unfold word_at. f_equal. apply map_ext_in. intros i I. apply in_seq in I. rewrite H by lia. reflexivity.
Qed.

Lemma word_at_bound be s o n :
  Forall (fun b => b < 256) s -> word_at be s o n < 256 ^ N.of_nat n.
Proof.
  intros F.
  assert (B : forall i, nth i s 0 < 256).
  { intros i. destruct (nth_in_or_default i s 0) as [I|E]; [|rewrite E; reflexivity].
    rewrite Forall_forall in F. now apply F. }
  revert o. induction n as [|n IH]; intros o; [reflexivity|].
  specialize (B o). rewrite Nat2N.inj_succ, N.pow_succ_r'. specialize (IH (S o)). destruct be.
  - rewrite word_at_big. nia.
  - rewrite word_at_little. nia.
Qed.

(** ** Readers on a linked section *)

Lemma reads_iff a n relocated : reads a = Some (n, relocated) <-> action_reads a n relocated.
Proof.
  split.
  - destruct a; cbn; try discriminate; unfold allowed_size;
      repeat match goal with |- context [Nat.eqb ?x ?y] => destruct (Nat.eqb_spec x y) end; subst; cbn;
      intros H; inversion H; subst; try (destruct wide); constructor; cbn; auto 6.
  - intros A. inversion A as [m I|m I|w|w|m]; subst; cbn; try reflexivity.
    all: cbn in I; repeat destruct I as [<-|I]; try reflexivity; contradiction.
Qed.

Lemma reads_positive a n : action_reads a n true -> (0 < n <= 8)%nat.
Proof.
  intros A. inversion A as [m I|m I|w|w|]; subst; try (destruct w; lia); cbn in I; lia.
Qed.

Lemma bytes_small n : (n <= 8)%nat -> 256 ^ N.of_nat n <= 2 ^ 64.
Proof. intros H. change (2 ^ 64) with (256 ^ 8). apply N.pow_le_mono_r; lia. Qed.

Section Linked.
  Variables (be : bool) (sa : N) (rs : list object_reloc) (s image : list N).
  Hypothesis L : linked be sa rs s image.
  Hypothesis Bytes : Forall (fun b => b < 256) s.
  Hypothesis Inside : fields_inside (List.length s) rs.

  Lemma outside_equal o n :
    (o + n <= List.length s)%nat ->
    (forall r, In r rs -> applied r -> apart o n (rl_offset r) (rl_bytes r)) ->
    word_at be s o n = word_at be image o n.
  Proof.
    intros Le A. apply word_at_ext. intros i I. symmetry. apply (lk_rest _ _ _ _ _ L); [lia|].
    intros r Ir Ar. specialize (A r Ir Ar). unfold apart in *. lia.
  Qed.

  Lemma linked_read o n :
    (0 < n <= 8)%nat -> (o + n <= List.length s)%nat ->
    (forall r, In r rs -> applied r ->
       apart o n (rl_offset r) (rl_bytes r) \/ rl_offset r = o /\ rl_bytes r = n) ->
    relocate (add_relocations sa rs) o (word_at be s o n) = word_at be image o n.
  Proof.
    intros P Le A.
    assert (Small : word_at be s o n < 2 ^ 64).
    { eapply N.lt_le_trans; [now apply word_at_bound|]. apply bytes_small. lia. }
    destruct (relocate_value sa rs o _ Small) as [N V|before r after B X La V].
    - rewrite V. apply outside_equal; [exact Le|]. intros r Ir Ar.
      destruct (A r Ir Ar) as [H|[H _]]; [exact H|]. now destruct (N r Ir Ar).
    - assert (Ir : In r rs) by (rewrite B; apply in_app_iff; cbn; auto).
      pose proof (field_value_applied _ _ _ _ V) as Ar.
      pose proof (Inside r Ir Ar) as [Pr _].
      destruct (A r Ir Ar) as [H|[_ H]]; [unfold apart in H; lia|].
      eapply field_value_unique; [exact V|].
      pose proof (lk_fields _ _ _ _ _ L r Ir Ar) as F. now rewrite X, H in F.
  Qed.

  Definition within (w : window) : Prop := (w_start w + w_len w <= List.length s)%nat.

  Lemma linked_perform w a :
    within w -> reads_whole_fields rs w a ->
    perform be s (add_relocations sa rs) w a = perform be image [] w a.
  Proof.
    intros W R. unfold within in W.
    assert (K : forall n relocated, reads a = Some (n, relocated) -> (n <= w_len w)%nat ->
      (if relocated then relocate (add_relocations sa rs) (w_start w) (word be (bytes_at s (w_start w) n))
       else word be (bytes_at s (w_start w) n))
      = (if relocated then relocate [] (w_start w) (word be (bytes_at image (w_start w) n))
         else word be (bytes_at image (w_start w) n))).
    { intros n relocated E Le. apply reads_iff in E. specialize (R n relocated E Le).
      change (relocate [] (w_start w) (word be (bytes_at image (w_start w) n)))
        with (word be (bytes_at image (w_start w) n)).
      rewrite !word_eq by (rewrite ?(lk_length _ _ _ _ _ L); lia).
      destruct relocated.
      - apply linked_read; [now apply (reads_positive a)|lia|].
        intros r Ir Ar. destruct (R r Ir Ar) as [H|(_ & H)]; auto.
      - apply outside_equal; [lia|]. intros r Ir Ar. destruct (R r Ir Ar) as [H|(H & _)]; [exact H|discriminate]. }
    destruct a; cbn [perform]; try reflexivity.
    all: destruct (reads _) as [[n' relocated]|]; [|reflexivity].
    all: destruct (Nat.leb_spec n' (w_len w)) as [Le|Le]; [|reflexivity].
    all: now rewrite (K n' relocated eq_refl Le).
  Qed.

  Lemma perform_within big data m w a w' new v :
    perform big data m w a = (w', new, v) -> within w ->
    within w' /\ match new with Some x => within x | None => True end.
  Proof.
    unfold within. intros E W.
    assert (K : forall n, (n <= w_len w)%nat ->
       (w_start w + n + (w_len w - n) <= List.length s)%nat) by (intros; lia).
    destruct a; cbn [perform] in E.
    all: try match type of E with context [reads ?a] => destruct (reads a) as [[n' relocated]|] end.
    all: repeat match type of E with context [Nat.leb ?x ?y] => destruct (Nat.leb_spec x y) end.
    all: inversion E; subst; cbn; repeat split; try exact I; try lia; auto.
  Qed.

  Lemma replace_forall {A} (P : A -> Prop) i x l : Forall P l -> P x -> Forall P (replace i x l).
  Proof.
    intros F H. unfold replace. apply Forall_app. split.
    - rewrite <- (firstn_skipn i l) in F. now apply Forall_app in F.
    - constructor; [exact H|]. rewrite <- (firstn_skipn (S i) l) in F. now apply Forall_app in F.
  Qed.

  Lemma linked_all todo ws :
    Forall within ws ->
    Forall (fun x => reads_whole_fields rs (fst (fst x)) (snd (fst x)))
      (perform_all be s (add_relocations sa rs) ws todo) ->
    perform_all be s (add_relocations sa rs) ws todo = perform_all be image [] ws todo.
  Proof.
    revert ws. induction todo as [|[i a] todo IH]; intros ws W R; [reflexivity|].
    cbn [perform_all] in *. destruct (nth_error ws i) as [w|] eqn:E; [|now apply IH].
    assert (Ww : within w).
    { rewrite Forall_forall in W. apply W. now apply nth_error_In in E. }
    destruct (perform be s (add_relocations sa rs) w a) as [[w' new] v] eqn:P.
    inversion R as [|x l Rx Rl]; subst. cbn in Rx.
    rewrite <- (linked_perform w a Ww Rx), P. f_equal.
    destruct (perform_within _ _ _ _ _ _ _ _ P Ww) as [W' Wn].
    apply IH; [|exact Rl]. apply Forall_app. split; [now apply replace_forall|].
    destruct new; repeat constructor. exact Wn.
  Qed.

  Lemma linked_section todo :
    Forall (fun x => reads_whole_fields rs (fst (fst x)) (snd (fst x)))
      (read_section be s (add_relocations sa rs) todo) ->
    read_section be s (add_relocations sa rs) todo = read_section be image [] todo.
  Proof.
    intros R. unfold read_section in *. rewrite (lk_length _ _ _ _ _ L). apply linked_all; [|exact R].
    constructor; [|constructor]. unfold within. cbn. lia.
  Qed.
End Linked.

(** ** There is a linked section *)

Fixpoint encode (n : nat) (v : N) : list N :=
  match n with O => [] | S n' => v mod 256 :: encode n' (v / 256) end.
Definition encoded (be : bool) (n : nat) (v : N) : list N := if be then rev (encode n v) else encode n v.
Definition patch (s : list N) (o : nat) (l : list N) : list N :=
  firstn o s ++ l ++ skipn (o + List.length l) s.

Lemma encode_length n v : List.length (encode n v) = n.
Proof. revert v. induction n as [|n IH]; intros v; cbn; [reflexivity|]. now rewrite IH. Qed.
Lemma encoded_length be n v : List.length (encoded be n v) = n.
Proof. destruct be; cbn; rewrite ?rev_length; apply encode_length. Qed.

Lemma encode_value n v : v < 256 ^ N.of_nat n -> little_endian (encode n v) = v.
Proof.
  revert v. induction n as [|n IH]; intros v H.
  - change (256 ^ N.of_nat 0) with 1 in H. cbn. lia.
  - rewrite Nat2N.inj_succ, N.pow_succ_r' in H. cbn [encode little_endian].
    rewrite IH by (apply N.div_lt_upper_bound; lia). rewrite (N.div_mod v 256) at 3 by lia. lia.
Qed.

Lemma encoded_value be n v : v < 256 ^ N.of_nat n -> word be (encoded be n v) = v.
Proof. intros H. unfold word, encoded. destruct be; rewrite ?rev_involutive; now apply encode_value. Qed.

Lemma patch_length s o l :
  (o + List.length l <= List.length s)%nat -> List.length (patch s o l) = List.length s.
Proof. intros H. unfold patch. rewrite !app_length, firstn_length, skipn_length. lia. Qed.

Lemma nth_firstn {A} i o (s : list A) d : (i < o)%nat -> nth i (firstn o s) d = nth i s d.
Proof.
  revert i s. induction o as [|o IH]; intros i s H; [lia|]. destruct s as [|x s]; [reflexivity|].
  destruct i as [|i]; [reflexivity|]. cbn. apply IH. lia.
Qed.
Lemma nth_skipn {A} i o (s : list A) d : nth i (skipn o s) d = nth (o + i) s d.
Proof.
  revert s. induction o as [|o IH]; intros s; [reflexivity|]. destruct s as [|x s]; [now destruct i|].
  cbn. apply IH.
Qed.

Lemma patch_outside s o l i :
  (o + List.length l <= List.length s)%nat -> apart i 1 o (List.length l) -> (0 < List.length l)%nat ->
  nth i (patch s o l) 0 = nth i s 0.
Proof.
  intros H A P. unfold patch, apart in *.
  assert (F : List.length (firstn o s) = o) by (rewrite firstn_length; lia).
  destruct A as [A|A].
  - rewrite app_nth1 by lia. apply nth_firstn. lia.
  - rewrite app_nth2 by lia. rewrite F. rewrite app_nth2 by lia. rewrite nth_skipn. f_equal. lia.
Qed.

Lemma patch_bytes s o l :
  (o + List.length l <= List.length s)%nat -> bytes_at (patch s o l) o (List.length l) = l.
Proof.
  intros H. unfold bytes_at, patch.
  assert (F : List.length (firstn o s) = o) by (rewrite firstn_length; lia).
  rewrite <- F at 1. rewrite skipn_app, skipn_all, Nat.sub_diag. cbn [skipn app].
  rewrite firstn_app, Nat.sub_diag, firstn_all. cbn [firstn]. apply app_nil_r.
Qed.

Lemma linked_exists be sa rs s :
  fields_apart rs -> fields_inside (List.length s) rs ->
  (forall r v, In r rs -> field_value sa r (word_at be s (rl_offset r) (rl_bytes r)) v ->
     v < 256 ^ N.of_nat (rl_bytes r)) ->
  exists image, linked be sa rs s image.
Proof.
  induction rs as [|r rs IH]; intros A I V.
  - exists s. split; [reflexivity|intros r []|reflexivity].
  - destruct IH as (image & L).
    + intros before x after B. apply (A (r :: before)). now rewrite B.
    + intros x Ix. apply I. now right.
    + intros x v Ix. apply V. now right.
    + destruct (applied_dec r) as [Ar|Ar].
      * destruct (field_value_exists sa r (word_at be s (rl_offset r) (rl_bytes r)) Ar) as (v & F).
        pose proof (V r v (or_introl eq_refl) F) as Fits.
        pose proof (I r (or_introl eq_refl) Ar) as [Pr Le].
        pose proof (encoded_length be (rl_bytes r) v) as El.
        pose proof (lk_length _ _ _ _ _ L) as Ll.
        exists (patch image (rl_offset r) (encoded be (rl_bytes r) v)). split.
        -- rewrite patch_length; lia.
        -- intros x [<-|Ix] Ax.
           ++ rewrite <- (word_eq be (patch _ _ _)) by (rewrite patch_length; lia).
              assert (P : bytes_at (patch image (rl_offset r) (encoded be (rl_bytes r) v)) (rl_offset r) (rl_bytes r)
                          = encoded be (rl_bytes r) v).
              { rewrite <- El at 2. apply patch_bytes. lia. }
              now rewrite P, encoded_value.
           ++ pose proof (A [] r rs eq_refl Ar x Ix Ax) as D.
              rewrite (word_at_ext be (patch _ _ _) image).
              ** now apply (lk_fields _ _ _ _ _ L).
              ** intros i Hi. apply patch_outside; rewrite ?El; try lia. unfold apart in *. lia.
        -- intros i Hi O. rewrite patch_outside; rewrite ?El; try lia.
           ++ apply (lk_rest _ _ _ _ _ L); [exact Hi|]. intros x Ix. apply O. now right.
           ++ apply O; [now left|exact Ar].
      * exists image. destruct L as [Ll Lf Lr]. split; [exact Ll| |].
        -- intros x [<-|Ix] Ax; [contradiction|auto].
        -- intros i Hi O. apply Lr; [exact Hi|]. intros x Ix. apply O. now right.
Qed.
