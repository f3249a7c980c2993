(** Proofs about memory, calls, PLT entries, notes and listings. *)
From Coq Require Import List NArith ZArith Bool String Lia Arith.
From Verif Require Import Base BaseProofs RangeModel TypeModel NamespaceModel FileModel FileSpec FileProofs
  CfiModel LocationModel PrintModel NameModel CodeModel CodeSpec.
Import ListNotations.
Local Open Scope N_scope.

(** ** Registers *)

Lemma convert_numbered r n : convert_reg r = Some n <-> numbered amd64 r n.
Proof.
  split.
  - destruct r as [g w|m|m| | | |]; cbn [convert_reg]; try discriminate.
    + destruct g as [| | | | | | | |m]; try (intros [= <-]; constructor; reflexivity).
      destruct (_ && _) eqn:E; [|discriminate]. intros [= <-].
      apply andb_true_iff in E as [E1 E2]. apply N.leb_le in E1, E2. constructor.
      assert (H : m = 8 \/ m = 9 \/ m = 10 \/ m = 11 \/ m = 12 \/ m = 13 \/ m = 14 \/ m = 15) by lia.
      repeat destruct H as [->|H]; try reflexivity. now subst m.
    + destruct (m <=? 15) eqn:E; [|discriminate]. intros H. injection H as <-. apply N.leb_le in E.
      apply (nu_xmm amd64 m). cbn [amd64 nu_vectors]. lia.
    + destruct (m <=? 15) eqn:E; [|discriminate]. intros H. injection H as <-. apply N.leb_le in E.
      apply (nu_ymm amd64 m). cbn [amd64 nu_vectors]. lia.
  - intros H. inversion H as [g w m E|m E|m E]; subst; clear H; cbn [amd64 nu_vectors nu_vector nu_general] in *.
    + assert (Hn : (N.to_nat n < 16)%nat) by (change 16%nat with (List.length (nu_general amd64)); apply nth_error_Some; cbn [amd64 nu_general]; rewrite E; discriminate).
      assert (B : n < 16) by lia. clear Hn.
      assert (H : n = 0 \/ n = 1 \/ n = 2 \/ n = 3 \/ n = 4 \/ n = 5 \/ n = 6 \/ n = 7 \/ n = 8 \/ n = 9 \/
                  n = 10 \/ n = 11 \/ n = 12 \/ n = 13 \/ n = 14 \/ n = 15) by lia.
      repeat destruct H as [->|H]; try subst n; cbn in E; injection E as <-; reflexivity.
    + cbn [convert_reg]. destruct (N.leb_spec m 15); [reflexivity|lia].
    + cbn [convert_reg]. destruct (N.leb_spec m 15); [reflexivity|lia].
Qed.

(** ** Memory *)

Lemma code_range_segment_bytes segments r : code_range segments r = segment_bytes segments r.
Proof. induction segments as [|s l IH]; [reflexivity|]. cbn [code_range segment_bytes]. now rewrite IH. Qed.

Lemma le_value_number l : Forall is_byte l -> number_of l (le_value l).
Proof.
  unfold number_of. induction l as [|b l IH]; intros F.
  { split; [reflexivity|]. cbn [List.length]. intros i H. lia. }
  inversion F as [|? ? Fb Fl]; subst. destruct (IH Fl) as [B D]. unfold is_byte in Fb.
  cbn [le_value List.length]. split.
  - rewrite Nat2N.inj_succ, N.pow_succ_r'. nia.
  - intros [|i] Hi; cbn [nth_error].
    + rewrite N.pow_0_r, N.div_1_r, N.mul_comm, N.mod_add by lia. now rewrite N.mod_small.
    + rewrite D by lia. f_equal. rewrite Nat2N.inj_succ, N.pow_succ_r'.
      rewrite <- N.div_div by (try apply N.pow_nonzero; lia).
      rewrite (N.mul_comm 256 (le_value l)), N.div_add, (N.div_small b) by lia. now rewrite N.add_0_l.
Qed.

Lemma number_unique l v w : number_of l v -> number_of l w -> v = w.
Proof.
  revert v w. induction l as [|b l IH]; intros v w [Bv Dv] [Bw Dw].
  { cbn in Bv, Bw. lia. }
  cbn [List.length] in *. rewrite Nat2N.inj_succ, N.pow_succ_r' in Bv, Bw.
  assert (E0 : v mod 256 = w mod 256).
  { pose proof (Dv O ltac:(lia)) as A. pose proof (Dw O ltac:(lia)) as B.
    rewrite N.pow_0_r, N.div_1_r in A, B. congruence. }
  assert (Er : v / 256 = w / 256).
  { apply IH; split.
    - apply N.div_lt_upper_bound; lia.
    - intros i Hi. pose proof (Dv (S i) ltac:(lia)) as A. cbn [nth_error] in A. rewrite A. f_equal.
      rewrite Nat2N.inj_succ, N.pow_succ_r', N.div_div by (try apply N.pow_nonzero; lia). reflexivity.
    - apply N.div_lt_upper_bound; lia.
    - intros i Hi. pose proof (Dw (S i) ltac:(lia)) as A. cbn [nth_error] in A. rewrite A. f_equal.
      rewrite Nat2N.inj_succ, N.pow_succ_r', N.div_div by (try apply N.pow_nonzero; lia). reflexivity. }
  rewrite (N.div_mod v 256), (N.div_mod w 256) by lia. now rewrite E0, Er.
Qed.

Lemma fits_of segments : Forall good_segment segments -> Forall segment_fits segments.
Proof. apply Forall_impl. now intros s []. Qed.

Lemma add64_small a b : a + b < 2 ^ 64 -> add64 a b = a + b.
Proof. intros H. unfold add64, wrap64. apply N.mod_small. exact H. Qed.

(** What is found at an address range. *)
Lemma range_loaded segments a size :
  Forall segment_fits segments -> a + size < 2 ^ 64 ->
  (code_range segments (mkRange a (add64 a size)) = BNone /\
   forall s, In s segments -> ~ segment_holds s (mkRange a (a + size))) \/
  (exists l, code_range segments (mkRange a (add64 a size)) = BBytes l /\ loaded segments a size l).
Proof.
  intros F H. rewrite (add64_small a size H), code_range_segment_bytes.
  destruct (segment_bytes_spec segments (mkRange a (a + size)) F) as [[E N]|(b & s & t & l & E & B & Hs & L & O)].
  - cbn [rbegin rend]. lia.
  - left. split; assumption.
  - right. exists l. split; [exact L|]. exists b, s, t. repeat split; try assumption; now apply O || apply Hs.
Qed.

Lemma nth_error_ext {A} (l m : list A) : (forall i, nth_error l i = nth_error m i) -> l = m.
Proof.
  revert m. induction l as [|x l IH]; intros [|y m] H; [reflexivity|now specialize (H O)|now specialize (H O)|].
  f_equal; [now injection (H O)|]. apply IH. intros i. exact (H (S i)).
Qed.

Lemma bytes_unique s r l m : segment_holds s r -> rbegin r <= rend r ->
  bytes_of s r l -> bytes_of s r m -> l = m.
Proof.
  intros _ _ [La A] [Lb B]. assert (E : List.length l = List.length m) by lia.
  clear La Lb. apply nth_error_ext. intros i.
  destruct (Nat.lt_ge_cases i (List.length l)) as [H|H].
  - rewrite A, B by lia. reflexivity.
  - rewrite (proj2 (nth_error_None l i)), (proj2 (nth_error_None m i)) by lia. reflexivity.
Qed.

Lemma first_unique {A} (P : A -> Prop) (l1 l2 : list A) : forall x y r1 r2,
  l1 ++ x :: r1 = l2 ++ y :: r2 -> (forall z, In z l1 -> ~ P z) -> (forall z, In z l2 -> ~ P z) ->
  P x -> P y -> x = y.
Proof.
  revert l2. induction l1 as [|a l1 IH]; intros [|b l2] x y r1 r2 E N1 N2 Px Py; cbn in E; injection E as -> E.
  - reflexivity.
  - exfalso. apply (N2 b); [now left|assumption].
  - exfalso. apply (N1 y); [now left|assumption].
  - apply (IH l2 x y r1 r2 E); try assumption.
    + intros z Hz. apply N1. now right.
    + intros z Hz. apply N2. now right.
Qed.

Lemma loaded_unique segments a size l m :
  loaded segments a size l -> loaded segments a size m -> l = m.
Proof.
  intros (b & s & t & E & N & H & B) (b' & s' & t' & E' & N' & H' & B').
  rewrite E in E'.
  pose proof (first_unique (fun t => segment_holds t (mkRange a (a + size))) b b' s s' t t' E' N N' H H') as <-.
  refine (bytes_unique s _ l m H _ B B'). cbn [rbegin rend]. lia.
Qed.

Lemma loaded_length segments a size l : loaded segments a size l -> N.of_nat (List.length l) = size.
Proof. intros (b & s & t & _ & _ & _ & B & _). cbn [rbegin rend] in B. lia. Qed.

Lemma loaded_bytes segments a size l :
  Forall good_segment segments -> loaded segments a size l -> Forall is_byte l.
Proof.
  intros F (b & s & t & -> & _ & H & B & D).
  assert (Fs : good_segment s) by (rewrite Forall_forall in F; apply F; apply in_or_app; right; now left).
  destruct Fs as [_ Fs]. rewrite Forall_forall in *. intros x Hx.
  apply In_nth_error in Hx as [i Hi]. assert (L : (i < List.length l)%nat) by (apply nth_error_Some; congruence).
  apply Fs. rewrite (D i L) in Hi. now apply nth_error_In in Hi.
Qed.

Lemma stored_unique segments a size v w : stored segments a size v -> stored segments a size w -> v = w.
Proof.
  intros (l & L & V) (m & M & W). pose proof (loaded_unique _ _ _ _ _ L M) as <-. exact (number_unique l v w V W).
Qed.

Lemma read_mem_spec segments a size :
  Forall good_segment segments -> a + size < 2 ^ 64 -> size = 4 \/ size = 8 ->
  (read_mem segments a size = Done None /\ forall v, ~ stored segments a size v) \/
  (exists v, read_mem segments a size = Done (Some v) /\ stored segments a size v).
Proof.
  intros F H S. unfold read_mem.
  destruct (range_loaded segments a size (fits_of _ F) H) as [[E N]|(l & E & L)]; rewrite E.
  - left. split; [reflexivity|]. intros v (l & (b & s & t & -> & _ & Hs & _) & _).
    apply (N s); [apply in_or_app; right; now left|exact Hs].
  - right. exists (le_value l). pose proof (loaded_length _ _ _ _ L) as Len. split.
    + destruct S as [-> | ->].
      * replace (List.length l =? 4)%nat with true; [reflexivity|symmetry; apply Nat.eqb_eq; lia].
      * replace (List.length l =? 8)%nat with true; [reflexivity|symmetry; apply Nat.eqb_eq; lia].
    + exists l. split; [exact L|]. apply le_value_number. exact (loaded_bytes _ _ _ _ F L).
Qed.

(** ** Calls *)

Lemma as_u64_spec z t : as_u64 z = t <-> Z.of_N t = (z mod 2 ^ 64)%Z.
Proof.
  unfold as_u64. pose proof (Z.mod_pos_bound z (2 ^ 64) ltac:(lia)) as B.
  split; [intros <-; now rewrite Z2N.id by lia|intros <-; apply N2Z.id].
Qed.

Lemma ip_address (i : insn) d :
  Z.of_N (add64 (in_end i) (as_u64 d)) =
  ((Z.of_N (in_address i) + Z.of_nat (List.length (in_bytes i)) + d) mod 2 ^ 64)%Z.
Proof.
  unfold in_end, add64, wrap64, as_u64, two64.
  rewrite N2Z.inj_mod, N2Z.inj_add, N2Z.inj_mod, N2Z.inj_add, nat_N_Z.
  rewrite Z2N.id by (apply Z.mod_pos_bound; lia).
  change (Z.of_N 18446744073709551616) with (2 ^ 64)%Z.
  rewrite Zplus_mod_idemp_r, Zplus_mod_idemp_l. reflexivity.
Qed.

Lemma ip_offset_relative i op d a size : is_ip_offset i op = Some (d, a, size) <-> relative i op d a size.
Proof.
  split.
  - destruct op as [r|z|base disp|]; try discriminate. cbn [is_ip_offset].
    destruct base; try discriminate; intros [= <- <- <-]; constructor; apply ip_address.
  - intros H. inversion H as [d' a' E|d' a' E]; subst; cbn [is_ip_offset]; repeat f_equal;
      rewrite <- ip_address in E; apply N2Z.inj; now symmetry.
Qed.

Lemma relative_size i op d a size : relative i op d a size -> size = 4 \/ size = 8.
Proof. intros []; auto. Qed.

Lemma imm_target segments i op t : is_imm op = Some t -> target segments i op t.
Proof.
  destruct op as [r|z|base disp|]; try discriminate. intros [= E]. constructor. now apply as_u64_spec.
Qed.

Lemma relative_not_imm i op d a size : relative i op d a size -> is_imm op = None.
Proof. now intros []. Qed.

Lemma call_operands_spec segments i : Forall good_segment segments -> forall ops,
  (forall op d a size, In op ops -> relative i op d a size -> a + size < 2 ^ 64) ->
  (call_operands segments i ops = Done None /\ forall op t, In op ops -> ~ target segments i op t) \/
  (exists before op after t, ops = before ++ op :: after /\
     (forall o, In o before -> forall u, ~ target segments i o u) /\ target segments i op t /\
     call_operands segments i ops = Done (Some (mkCall (in_address i) t))).
Proof.
  intros F ops. induction ops as [|op ops IH]; intros R.
  { left. split; [reflexivity|]. intros op t []. }
  assert (IH' := IH (fun o d a size I => R o d a size (or_intror I))). clear IH.
  cbn [call_operands]. destruct (is_imm op) as [imm|] eqn:I.
  { right. exists [], op, ops, imm. repeat split; [intros o []|now apply imm_target]. }
  assert (NI : forall z, op <> PImm z) by (intros z ->; discriminate).
  assert (Rest : (forall u, ~ target segments i op u) ->
    (call_operands segments i ops = Done None /\ forall o t, In o (op :: ops) -> ~ target segments i o t) \/
    (exists before o after t, op :: ops = before ++ o :: after /\
      (forall o, In o before -> forall u, ~ target segments i o u) /\ target segments i o t /\
      call_operands segments i ops = Done (Some (mkCall (in_address i) t)))).
  { intros N. destruct IH' as [[E A]|(b & o & a & t & E & B & T & C)].
    - left. split; [exact E|]. intros o t [<-|Ho]; [apply N|now apply A].
    - right. exists (op :: b), o, a, t. repeat split; try assumption; [cbn; now rewrite E|].
      intros o' [<-|Ho]; [apply N|now apply B]. }
  destruct (is_ip_offset i op) as [[[d a] size]|] eqn:P.
  - pose proof (proj1 (ip_offset_relative i op d a size) P) as Rel.
    destruct (read_mem_spec segments a size F (R op d a size (or_introl eq_refl) Rel) (relative_size _ _ _ _ _ Rel))
      as [[E N]|(v & E & St)]; rewrite E.
    + apply Rest. intros u T. inversion T as [z u' Z|op' d' a' s' u' Rel' St']; subst.
      * now apply (NI z).
      * apply ip_offset_relative in Rel'. rewrite Rel' in P. injection P as -> -> ->. now apply (N u).
    + right. exists [], op, ops, v. repeat split; [intros o []|]. now apply (tg_pointer _ _ op d a size v).
  - apply Rest. intros u T. inversion T as [z u' Z|op' d' a' s' u' Rel' St']; subst.
    + now apply (NI z).
    + apply ip_offset_relative in Rel'. congruence.
Qed.

Lemma target_unique segments i op t u : target segments i op t -> target segments i op u -> t = u.
Proof.
  intros [z t' E|op' d a s t' R S]; intros H; inversion H as [z' u' E'|op'' d' a' s' u' R' S']; subst.
  - apply N2Z.inj. congruence.
  - inversion R'.
  - inversion R.
  - apply ip_offset_relative in R, R'. rewrite R in R'. injection R' as -> -> ->. exact (stored_unique _ _ _ _ _ S S').
Qed.

Lemma makes_unique segments i c d : makes segments i c -> makes segments i d -> c = d.
Proof.
  intros [b op a t _ E N T] [b' op' a' t' _ E' N' T']. rewrite E in E'.
  assert (op = op') as <-.
  { apply (first_unique (fun o => exists u, target segments i o u) b b' op op' a a' E').
    - intros z Hz [u Hu]. exact (N z Hz u Hu).
    - intros z Hz [u Hu]. exact (N' z Hz u Hu).
    - now exists t.
    - now exists t'. }
  f_equal. exact (target_unique _ _ _ _ _ T T').
Qed.

Lemma call_of_spec segments i : Forall good_segment segments -> reads_fit i ->
  (call_of segments i = Done None /\ forall c, ~ makes segments i c) \/
  (exists c, call_of segments i = Done (Some c) /\ makes segments i c).
Proof.
  intros F R. unfold call_of. destruct (in_call i) eqn:C.
  - destruct (call_operands_spec segments i F (in_operands i) R) as [[E N]|(b & op & a & t & E & B & T & D)].
    + left. split; [exact E|]. intros c [b op a t _ Eo _ T]. apply (N op t); [|exact T].
      rewrite Eo. apply in_or_app. right. now left.
    + right. exists (mkCall (in_address i) t). split; [exact D|]. now apply (mk_call segments i b op a t).
  - left. split; [reflexivity|]. intros c [b op a t C' _ _ _]. congruence.
Qed.

Lemma calls_of_spec segments l : Forall good_segment segments -> Forall reads_fit l ->
  exists cs, calls_of segments l = Done cs /\ all_calls segments l cs.
Proof.
  intros F R. induction R as [|i l Ri R (cs & E & A)].
  - exists []. split; [reflexivity|constructor].
  - cbn [calls_of]. rewrite E. destruct (call_of_spec segments i F Ri) as [[-> N]|(c & -> & M)].
    + exists cs. split; [reflexivity|now constructor].
    + exists (c :: cs). split; [reflexivity|now constructor].
Qed.

Lemma all_calls_unique segments l cs ds : all_calls segments l cs -> all_calls segments l ds -> cs = ds.
Proof.
  intros A. revert ds. induction A as [|i c l cs M A IH|i l cs N A IH]; intros ds B; inversion B; subst.
  - reflexivity.
  - f_equal; [now apply (makes_unique segments i)|now apply IH].
  - exfalso. match goal with H : forall c, ~ makes segments i c |- _ => now apply (H c) end.
  - exfalso. match goal with H : makes segments i ?c |- _ => now apply (N c) end.
  - now apply IH.
Qed.

Section Disasm.
  Variable disasm : list N -> N -> option (list insn).

  Lemma code_calls_spec segments r :
    Forall good_segment segments -> rbegin r <= rend r -> rend r < 2 ^ 64 ->
    (forall l insns, disasm l (rbegin r) = Some insns -> Forall reads_fit insns) ->
    exists insns cs, code_calls disasm segments r = Done cs /\ code_of disasm segments r insns /\
      all_calls segments insns cs.
  Proof.
    intros F Hr B D. unfold code_calls.
    pose proof (range_loaded segments (rbegin r) (rend r - rbegin r) (fits_of _ F) ltac:(lia)) as L.
    rewrite add64_small in L by lia. replace (rbegin r + (rend r - rbegin r)) with (rend r) in L by lia.
    replace (mkRange (rbegin r) (rend r)) with r in L by now destruct r.
    destruct L as [[E N]|(l & E & L)]; rewrite E.
    - exists [], []. split; [reflexivity|]. split; [now apply co_absent|constructor].
    - destruct (disasm l (rbegin r)) as [insns|] eqn:X.
      + destruct (calls_of_spec segments insns F (D l insns X)) as (cs & C & A).
        exists insns, cs. split; [exact C|]. split; [now apply (co_code disasm segments r l)|exact A].
      + exists [], []. split; [reflexivity|]. split; [now apply (co_bad disasm segments r l)|constructor].
  Qed.

  Definition range_ok (r : range) : Prop := rbegin r <= rend r /\ rend r < 2 ^ 64.

  Lemma function_calls_spec segments ranges :
    Forall good_segment segments -> Forall range_ok ranges ->
    (forall l a insns, disasm l a = Some insns -> Forall reads_fit insns) ->
    exists cs, function_calls disasm segments ranges = Done cs /\ range_calls disasm segments ranges cs.
  Proof.
    intros F R D. induction R as [|r ranges [Hr Hb] R (cs & E & A)].
    - exists []. split; [reflexivity|constructor].
    - cbn [function_calls]. rewrite E.
      destruct (code_calls_spec segments r F Hr Hb (fun l => D l (rbegin r))) as (insns & ds & -> & C & B).
      exists (ds ++ cs). split; [reflexivity|]. now apply (rc_cons disasm segments r ranges insns).
  Qed.

  Lemma code_of_unique segments r i j : rbegin r <= rend r ->
    code_of disasm segments r i -> code_of disasm segments r j -> i = j.
  Proof.
    intros Hr.
    assert (X : forall l, loaded segments (rbegin r) (rend r - rbegin r) l ->
                (forall s, In s segments -> ~ segment_holds s r) -> False).
    { intros l (b & s & t & -> & _ & H & _) N. apply (N s); [apply in_or_app; right; now left|].
      replace (rbegin r + (rend r - rbegin r)) with (rend r) in H by lia. now destruct r. }
    intros [l a L A|l L A|N] [m b M B|m M B|N']; try reflexivity; try (exfalso; eauto; fail);
      pose proof (loaded_unique _ _ _ _ _ L M) as <-; congruence.
  Qed.

  Lemma range_calls_unique segments ranges cs ds : Forall range_ok ranges ->
    range_calls disasm segments ranges cs -> range_calls disasm segments ranges ds -> cs = ds.
  Proof.
    intros R A. revert ds. induction A as [|r l i a b C X A IH]; intros ds B; inversion B as [|r' l' i' a' b' C' X' A']; subst.
    - reflexivity.
    - inversion R as [|? ? [Hr _] R']; subst. pose proof (code_of_unique segments r i i' Hr C C') as <-.
      f_equal; [exact (all_calls_unique _ _ _ _ X X')|now apply IH].
  Qed.
End Disasm.

(** ** PLT entries *)

Definition inserts (l : list (N * string)) (m : N -> option string) : N -> option string :=
  fold_left (fun m x => map_insert m (fst x) (snd x)) l m.

Lemma inserts_sound l : forall m a s, inserts l m a = Some s -> m a = Some s \/ In (a, s) l.
Proof.
  induction l as [|[k v] l IH]; intros m a s H; [now left|]. cbn [inserts fold_left fst snd] in H.
  destruct (IH _ _ _ H) as [E|I]; [|right; now right].
  unfold map_insert in E. destruct (N.eqb_spec a k) as [->|]; [|now left].
  injection E as ->. right. now left.
Qed.

Lemma inserts_keeps l : forall m a, m a <> None -> inserts l m a <> None.
Proof.
  induction l as [|[k v] l IH]; intros m a H; [exact H|]. cbn [inserts fold_left fst snd]. apply IH.
  unfold map_insert. now destruct (a =? k).
Qed.

Lemma inserts_complete l : forall m a s, In (a, s) l -> inserts l m a <> None.
Proof.
  induction l as [|[k v] l IH]; intros m a s; [intros []|]. cbn [inserts fold_left fst snd].
  intros [[= -> ->]|I]; [|now apply (IH _ a s)].
  apply inserts_keeps. unfold map_insert. now rewrite N.eqb_refl.
Qed.

Lemma inserts_app l k m : inserts (l ++ k) m = inserts k (inserts l m).
Proof. unfold inserts. apply fold_left_app. Qed.

Definition operand_plt (relocations : N -> option string) (i : insn) (op : operand) : list (N * string) :=
  match is_ip_offset i op with
  | Some (_, target, _) =>
      match relocations target with
      | Some symbol => [(N.ldiff (in_address i) 15, symbol)]
      | None => []
      end
  | None => []
  end.
Definition insn_plts (relocations : N -> option string) (i : insn) : list (N * string) :=
  flat_map (operand_plt relocations i) (in_operands i).

Lemma plt_insn_inserts relocations i m : plt_insn relocations m i = inserts (insn_plts relocations i) m.
Proof.
  unfold plt_insn, insn_plts. revert m. induction (in_operands i) as [|op ops IH]; intros m; [reflexivity|].
  cbn [fold_left flat_map]. rewrite inserts_app, <- IH. f_equal. unfold operand_plt.
  destruct (is_ip_offset i op) as [[[d t] size]|]; [|reflexivity]. now destruct (relocations t).
Qed.

Lemma plt_insns_inserts relocations insns : forall m,
  fold_left (plt_insn relocations) insns m = inserts (flat_map (insn_plts relocations) insns) m.
Proof.
  induction insns as [|i l IH]; intros m; [reflexivity|].
  cbn [fold_left flat_map]. now rewrite inserts_app, <- plt_insn_inserts, IH.
Qed.

Lemma ldiff_15 x a : N.ldiff x 15 = a <-> a mod 16 = 0 /\ a <= x < a + 16.
Proof.
  change 15 with (N.ones 4). rewrite N.ldiff_ones_r, N.shiftl_mul_pow2, N.shiftr_div_pow2.
  change (2 ^ 4) with 16. pose proof (N.div_mod x 16 ltac:(lia)) as D.
  pose proof (N.mod_lt x 16 ltac:(lia)) as M. split.
  - intros <-. split; [now apply N.mod_mul|lia].
  - intros [A B]. pose proof (N.div_mod a 16 ltac:(lia)) as E. rewrite A in E.
    assert (x / 16 = a / 16) by (symmetry; apply (N.div_unique x 16 (a / 16) (x - a)); lia). lia.
Qed.

Section Plt.
  Variable disasm : list N -> N -> option (list insn).
  Variable segments : list segment.
  Variable relocations : list (N * string).
  Hypothesis good : Forall segment_fits segments.

  Definition section_fits (s : named_section) : Prop :=
    forall a, sec_address s = Some a -> a + sec_size s < 2 ^ 64.

  Lemma relocation_sound t s : relocation_map relocations t = Some s -> In (t, s) relocations.
  Proof.
    intros H. unfold relocation_map in H. destruct (inserts_sound relocations empty_map t s H) as [E|]; [discriminate|assumption].
  Qed.

  Lemma insn_plts_spec insns a s :
    In (a, s) (flat_map (insn_plts (relocation_map relocations)) insns) ->
    exists i op d t size, In i insns /\ a mod 16 = 0 /\ a <= in_address i < a + 16 /\
      In op (in_operands i) /\ relative i op d t size /\ In (t, s) relocations.
  Proof.
    intros H. apply in_flat_map in H as (i & Hi & H). apply in_flat_map in H as (op & Hop & H).
    unfold operand_plt in H. destruct (is_ip_offset i op) as [[[d t] size]|] eqn:E; [|destruct H].
    destruct (relocation_map relocations t) as [sym|] eqn:R; [|destruct H].
    destruct H as [[= L <-]|[]]. apply ldiff_15 in L as [L1 L2].
    exists i, op, d, t, size. repeat split; try assumption; try apply L2.
    - now apply ip_offset_relative.
    - now apply relocation_sound.
  Qed.

  Lemma insn_plts_complete insns i op d t size s a :
    In i insns -> In op (in_operands i) -> relative i op d t size -> In (t, s) relocations ->
    a mod 16 = 0 -> a <= in_address i < a + 16 ->
    exists s', In (a, s') (flat_map (insn_plts (relocation_map relocations)) insns).
  Proof.
    intros Hi Ho R I A B. pose proof (inserts_complete relocations empty_map t s I) as N.
    change (relocation_map relocations t <> None) in N.
    destruct (relocation_map relocations t) as [s'|] eqn:E; [|congruence]. exists s'.
    apply in_flat_map. exists i. split; [exact Hi|]. apply in_flat_map. exists op. split; [exact Ho|].
    unfold operand_plt. apply ip_offset_relative in R. rewrite R, E. left. f_equal. now apply ldiff_15.
  Qed.

  Lemma find_plts_spec sections : Forall section_fits sections -> forall m,
    exists m', find_plts disasm (relocation_map relocations) segments sections m = Done m' /\
      (forall a s, m' a = Some s -> m a = Some s \/ plt_entry disasm segments relocations sections a s) /\
      (forall a, m a <> None -> m' a <> None) /\
      ((forall s, In s sections -> forall name a l, sec_name s = Some name -> String.prefix ".plt" name = true ->
          sec_address s = Some a -> loaded segments a (sec_size s) l -> disasm l a <> None) ->
       forall a s, plt_entry disasm segments relocations sections a s -> m' a <> None).
  Proof.
    intros F. induction F as [|sec sections Fs F IH]; intros m.
    { exists m. split; [reflexivity|]. split; [now left|]. split; [easy|].
      intros _ a s (x & _ & _ & _ & _ & _ & _ & [] & _). }
    assert (Skip : (forall insns, ~ plt_code disasm segments sec insns) ->
      forall m', find_plts disasm (relocation_map relocations) segments sections m = Done m' ->
      exists m', find_plts disasm (relocation_map relocations) segments sections m = Done m' /\
      (forall a s, m' a = Some s -> m a = Some s \/ plt_entry disasm segments relocations (sec :: sections) a s) /\
      (forall a, m a <> None -> m' a <> None) /\
      ((forall s, In s (sec :: sections) -> forall name a l, sec_name s = Some name -> String.prefix ".plt" name = true ->
          sec_address s = Some a -> loaded segments a (sec_size s) l -> disasm l a <> None) ->
       forall a s, plt_entry disasm segments relocations (sec :: sections) a s -> m' a <> None)).
    { intros N m0 _. destruct (IH m) as (m' & E & S & K & C). exists m'. split; [exact E|]. split; [|split; [exact K|]].
      - intros a s H. destruct (S a s H) as [|(x & i & P)]; [now left|right].
        exists x, i. destruct P as (i0 & op & d & t & size & I & P). exists i0, op, d, t, size. split; [now right|exact P].
      - intros D a s (x & i & i0 & op & d & t & size & [<-|I] & P & Q).
        + exfalso. exact (N i P).
        + apply (C (fun s Is => D s (or_intror Is)) a s). exists x, i, i0, op, d, t, size. now split. }
    destruct (IH m) as (m0 & E0 & _).
    cbn [find_plts].
    destruct (sec_name sec) as [name|] eqn:En;
      [|apply (Skip ltac:(intros i (nm & ? & ? & ? & _); congruence) m0 E0)].
    destruct (sec_address sec) as [a0|] eqn:Ea;
      [|apply (Skip ltac:(intros i (nm & ? & ? & ? & _ & ? & _); congruence) m0 E0)].
    destruct (String.prefix ".plt" name) eqn:Ep;
      [|apply (Skip ltac:(intros i (nm & ? & ? & ? & ? & _); congruence) m0 E0)].
    pose proof (Fs a0 Ea) as Fit.
    destruct (range_loaded segments a0 (sec_size sec) good Fit) as [[E N]|(l & E & L)];
      rewrite code_range_segment_bytes in E; rewrite E.
    { apply (Skip ltac:(intros i (nm & a1 & l & _ & _ & Ha & (b & s & t & Hs & _ & Hh & _) & _);
        rewrite Ea in Ha; injection Ha as <-;
        apply (N s); [rewrite Hs; apply in_or_app; right; now left|exact Hh]) m0 E0). }
    destruct (disasm l a0) as [insns|] eqn:D.
    - rewrite plt_insns_inserts.
      destruct (IH (inserts (flat_map (insn_plts (relocation_map relocations)) insns) m)) as (m' & E' & S & K & C).
      exists m'. split; [exact E'|]. split; [|split].
      + intros a s H. destruct (S a s H) as [X|(x & i & i0 & op & d & t & size & I & P)].
        * apply inserts_sound in X as [X|X]; [now left|right].
          apply insn_plts_spec in X as (i & op & d & t & size & Hi & A & B & Ho & R & Hr).
          exists sec, insns, i, op, d, t, size. split; [now left|]. split.
          { exists name, a0, l. now repeat split. }
          now repeat split.
        * right. exists x, i, i0, op, d, t, size. split; [now right|exact P].
      + intros a H. apply K. now apply inserts_keeps.
      + intros Dis a s (x & i & i0 & op & d & t & size & [<-|I] & P & Hi & A & B & Ho & R & Hr).
        * apply K. destruct P as (nm & a1 & l1 & _ & _ & Ha & L1 & D1). rewrite Ea in Ha. injection Ha as <-.
          pose proof (loaded_unique _ _ _ _ _ L L1) as <-. rewrite D in D1. injection D1 as <-.
          destruct (insn_plts_complete insns i0 op d t size s a Hi Ho R Hr A B) as (s' & Hs').
          now apply (inserts_complete _ m a s').
        * apply (C (fun s Is => Dis s (or_intror Is)) a s). exists x, i, i0, op, d, t, size. now repeat split.
    - exists m. split; [reflexivity|]. split; [now left|]. split; [easy|].
      intros Dis. exfalso. exact (Dis sec (or_introl eq_refl) name a0 l En Ep Ea L D).
  Qed.
End Plt.

(** ** Notes *)

Lemma range_contains_spec r a : range_contains r a = true <-> rbegin r <= a < rend r.
Proof.
  unfold range_contains. rewrite andb_true_iff, N.leb_le, N.ltb_lt. reflexivity.
Qed.

Lemma imm_spec op imm : is_imm op = Some imm <-> exists z, op = PImm z /\ Z.of_N imm = (z mod 2 ^ 64)%Z.
Proof.
  split.
  - destruct op as [r|z|b d|]; try discriminate. intros [= E]. exists z. split; [reflexivity|]. now apply as_u64_spec.
  - intros (z & -> & E). cbn [is_imm]. f_equal. now apply as_u64_spec.
Qed.

Lemma is_reg_uses op r : is_reg op = Some r <-> uses op r.
Proof.
  split.
  - destruct op as [x|z|b d|]; try discriminate; cbn [is_reg]; intros H; constructor; now apply convert_numbered.
  - intros []; cbn [is_reg]; now apply convert_numbered.
Qed.

Lemma in_registers l r reg :
  In (r, reg) (registers l) <-> exists p, In (r, p) l /\ pc_is_value p = false /\ pc_location p = LRegister reg.
Proof.
  unfold registers. rewrite in_flat_map. split.
  - intros ([r' p] & I & H). cbn [fst snd] in H. destruct (pc_is_value p) eqn:V; [destruct H|].
    destruct (pc_location p) eqn:L; try (destruct H; fail). destruct H as [[= -> ->]|[]]. now exists p.
  - intros (p & I & V & L). exists (r, p). split; [exact I|]. cbn [fst snd]. rewrite V, L. now left.
Qed.

Lemma in_register_offsets l r reg o :
  In (r, reg, o) (register_offsets l) <->
  exists p, In (r, p) l /\ pc_is_value p = false /\ pc_location p = LRegisterOffset reg o.
Proof.
  unfold register_offsets. rewrite in_flat_map. split.
  - intros ([r' p] & I & H). cbn [fst snd] in H. destruct (pc_is_value p) eqn:V; [destruct H|].
    destruct (pc_location p) eqn:L; try (destruct H; fail). destruct H as [[= -> -> ->]|[]]. now exists p.
  - intros (p & I & V & L). exists (r, p). split; [exact I|]. cbn [fst snd]. rewrite V, L. now left.
Qed.

Lemma plain_spec r i op imm : plain r i op imm <->
  is_imm op = Some imm /\ in_jump i && range_contains r imm = false /\ (imm =? 0) = false.
Proof.
  unfold plain. rewrite imm_spec, andb_false_iff, N.eqb_neq.
  assert (X : (~ (in_jump i = true /\ rbegin r <= imm < rend r)) <->
              (in_jump i = false \/ range_contains r imm = false)).
  { rewrite <- range_contains_spec. destruct (in_jump i), (range_contains r imm); intuition discriminate. }
  split.
  - intros (z & E & M & Z0 & J). repeat split; [now exists z|now apply X|assumption].
  - intros ((z & E & M) & J & Z0). exists z. repeat split; try assumption. now apply X.
Qed.

Lemma imm_notes_spec n r i a op x :
  In x (imm_notes n r i op) <->
  noted n r i a op x /\ match x with NFunction _ _ | NPlt _ _ | NRelocation _ _ => True | _ => False end.
Proof.
  unfold imm_notes. split.
  - destruct (is_imm op) as [imm|] eqn:I; [|intros []].
    destruct (in_jump i && range_contains r imm) eqn:J; [intros []|]. destruct (imm =? 0) eqn:Z0; [intros []|].
    assert (P : plain r i op imm) by (apply plain_spec; auto).
    destruct (nm_function n imm) eqn:Ef; [intros [<-|[]]; split; [now apply no_function|exact Logic.I]|].
    destruct (nm_plt n imm) eqn:Ep; [intros [<-|[]]; split; [now apply no_plt|exact Logic.I]|].
    destruct (nm_relocation n imm) eqn:Er; [intros [<-|[]]; split; [now apply no_relocation|exact Logic.I]|intros []].
  - intros [H K]. destruct H as [imm f P Ef|imm s P Ef Ep|imm s P Ef Ep Er| | | | | |]; try (destruct K; fail);
      apply plain_spec in P as (-> & -> & ->); rewrite Ef; try rewrite Ep; try rewrite Er; now left.
Qed.

Lemma reg_notes_spec n r i a op x :
  In x (reg_notes n a op) <-> noted n r i a op x /\ match x with NRegister _ _ => True | _ => False end.
Proof.
  unfold reg_notes. split.
  - destruct (is_reg op) as [reg|] eqn:R; [|intros []]. apply is_reg_uses in R.
    intros H. apply in_flat_map in H as (l & Hl & H). apply in_flat_map in H as ([rg g] & Hr & H).
    cbn [fst snd] in H. destruct (_ && _) eqn:E; [|destruct H]. destruct H as [<-|[]].
    apply andb_true_iff in E as [E1 E2]. apply N.eqb_eq in E1 as <-. apply range_contains_spec in E2.
    split; [|exact I]. apply no_register; [exact R|now apply in_app_or|].
    apply in_registers in Hr as (p & Ip & V & L). now exists rg, p.
  - intros [H K]. destruct H as [ | | |reg l U Hl (rg & p & Ip & V & L & C)| | | | |]; try (destruct K; fail).
    apply is_reg_uses in U. rewrite U. apply in_flat_map. exists l. split; [now apply in_or_app|].
    apply in_flat_map. exists (rg, reg). split; [apply in_registers; now exists p|].
    cbn [fst snd]. apply range_contains_spec in C. rewrite N.eqb_refl, C. now left.
Qed.

Lemma as_i64_small z : (- 2 ^ 63 <= z < 2 ^ 63)%Z -> as_i64 z = z.
Proof. intros H. unfold as_i64. rewrite Z.mod_small by lia. lia. Qed.

Lemma reg_offset_notes_spec n r i a op x :
  Forall local_fits (nm_parameters n) -> Forall local_fits (nm_variables n) ->
  In x (reg_offset_notes n a op) <->
  noted n r i a op x /\ match x with NRegisterOffset _ _ _ => True | _ => False end.
Proof.
  intros F1 F2.
  assert (F : forall l, In l (nm_parameters n ++ nm_variables n) -> local_fits l).
  { rewrite Forall_forall in F1, F2. intros l H. apply in_app_or in H as []; auto. }
  unfold reg_offset_notes. split.
  - destruct op as [| |base disp|]; cbn [is_reg_offset]; try (intros []; fail).
    destruct (convert_reg base) as [reg|] eqn:R; [|intros []]. apply convert_numbered in R.
    intros H. apply in_flat_map in H as (l & Hl & H). apply in_flat_map in H as ([[rg g] o] & Hr & H).
    destruct (_ && _) eqn:E; [|destruct H]. destruct H as [<-|[]].
    apply andb_true_iff in E as [E E4]. apply andb_true_iff in E as [E E3]. apply andb_true_iff in E as [E1 E2].
    apply N.eqb_eq in E1 as <-. apply Z.leb_le in E2. apply Z.ltb_lt in E3. apply range_contains_spec in E4.
    apply in_register_offsets in Hr as (p & Ip & V & L).
    assert (Loc : located l a (LRegisterOffset reg o)) by now exists rg, p.
    destruct (F l Hl) as [Fs Fo]. destruct (Fo a reg o Loc) as [B1 B2].
    split; [|exact I]. apply (no_register_offset n r i a _ base disp reg o l); try easy; [now apply in_app_or|].
    unfold size_i64 in E3. rewrite (as_i64_small (Z.of_N _)) in E3 by lia. rewrite as_i64_small in E3 by lia. lia.
  - intros [H K]. destruct H as [ | | | |base disp reg o l -> Nb Hl (rg & p & Ip & V & L & C) D| | | |]; try (destruct K; fail).
    cbn [is_reg_offset]. apply convert_numbered in Nb. rewrite Nb.
    apply in_flat_map. exists l. assert (Hl' : In l (nm_parameters n ++ nm_variables n)) by now apply in_or_app.
    split; [exact Hl'|].
    apply in_flat_map. exists (rg, reg, o). split; [apply in_register_offsets; now exists p|].
    assert (Loc : located l a (LRegisterOffset reg o)) by now exists rg, p.
    destruct (F l Hl') as [Fs Fo]. destruct (Fo a reg o Loc) as [B1 B2].
    unfold size_i64. rewrite (as_i64_small (Z.of_N _)) by lia. rewrite as_i64_small by lia.
    apply range_contains_spec in C. rewrite N.eqb_refl, C.
    destruct (Z.leb_spec o disp); [|lia]. destruct (Z.ltb_spec disp (o + Z.of_N (unwrap_or_0 (lo_size l)))%Z); [|lia].
    now left.
Qed.

Lemma ip_notes_spec n r i a op :
  Forall good_segment (nm_regions n) ->
  (forall d t size, relative i op d t size -> t + size < 2 ^ 64) ->
  exists l, ip_notes n i op = Done l /\ forall x,
    In x l <-> noted n r i a op x /\
      match x with NIpFunction _ _ | NIpVariable _ _ | NIpRelocation _ _ | NIpValue _ _ _ => True | _ => False end.
Proof.
  intros F B. unfold ip_notes. destruct (is_ip_offset i op) as [[[d t] size]|] eqn:P.
  2:{ exists []. split; [reflexivity|]. intros x. split; [intros []|]. intros [H K].
      destruct H as [ | | | | |? ? ? ? R|? ? ? ? R|? ? ? ? R|? ? ? ? R]; try (destruct K; fail);
        apply ip_offset_relative in R; congruence. }
  assert (R : relative i op d t size) by now apply ip_offset_relative.
  assert (U : forall d' t' s', relative i op d' t' s' -> d' = d /\ t' = t /\ s' = size).
  { intros d' t' s' R'. apply ip_offset_relative in R'. rewrite P in R'. injection R' as -> -> ->. auto. }
  destruct (nm_function n t) as [f|] eqn:Ef.
  { eexists. split; [reflexivity|]. intros x. split.
    - intros [<-|[]]. split; [now apply (no_ip_function n r i a op d t size)|exact I].
    - intros [H K]. destruct H as [ | | | | |? ? ? ? R'|? ? ? ? R'|? ? ? ? R'|? ? ? ? R']; try (destruct K; fail);
        apply U in R' as (-> & -> & ->); try congruence. left. congruence. }
  destruct (nm_variable n t) as [v|] eqn:Ev.
  { eexists. split; [reflexivity|]. intros x. split.
    - intros [<-|[]]. split; [now apply (no_ip_variable n r i a op d t size)|exact I].
    - intros [H K]. destruct H as [ | | | | |? ? ? ? R'|? ? ? ? R'|? ? ? ? R'|? ? ? ? R']; try (destruct K; fail);
        apply U in R' as (-> & -> & ->); try congruence. left. congruence. }
  destruct (nm_relocation n t) as [s|] eqn:Er.
  { eexists. split; [reflexivity|]. intros x. split.
    - intros [<-|[]]. split; [now apply (no_ip_relocation n r i a op d t size)|exact I].
    - intros [H K]. destruct H as [ | | | | |? ? ? ? R'|? ? ? ? R'|? ? ? ? R'|? ? ? ? R']; try (destruct K; fail);
        apply U in R' as (-> & -> & ->); try congruence. left. congruence. }
  destruct (read_mem_spec (nm_regions n) t size F (B d t size R) (relative_size _ _ _ _ _ R)) as [[E N]|(v & E & St)];
    rewrite E.
  - exists []. split; [reflexivity|]. intros x. split; [intros []|]. intros [H K].
    destruct H as [ | | | | |? ? ? ? R'|? ? ? ? R'|? ? ? ? R'|d' t' s' v' R' ? ? ? St']; try (destruct K; fail);
      apply U in R' as (-> & -> & ->); try congruence. exact (N v' St').
  - eexists. split; [reflexivity|]. intros x. split.
    + intros [<-|[]]. split; [now apply (no_ip_value n r i a op d t size)|exact I].
    + intros [H K].
      destruct H as [ | | | | |? ? ? ? R'|? ? ? ? R'|? ? ? ? R'|d' t' s' v' R' ? ? ? St']; try (destruct K; fail);
        apply U in R' as (-> & -> & ->); try congruence.
      left. now rewrite (stored_unique _ _ _ _ _ St St').
Qed.

Lemma operand_notes_spec n r i :
  Forall good_segment (nm_regions n) ->
  Forall local_fits (nm_parameters n) -> Forall local_fits (nm_variables n) -> forall ops first,
  (forall op d t size, In op ops -> relative i op d t size -> t + size < 2 ^ 64) ->
  exists l, operand_notes n r i first ops = Done l /\ forall x,
    In x l <-> exists k op, nth_error ops k = Some op /\
      noted n r i (if first && (k =? 0)%nat then in_end i else in_address i) op x.
Proof.
  intros F F1 F2 ops. induction ops as [|op ops IH]; intros first B.
  { exists []. split; [reflexivity|]. intros x. split; [intros []|]. intros ([|k] & op & E & _); discriminate. }
  cbn [operand_notes]. set (a := if first then in_end i else in_address i).
  destruct (ip_notes_spec n r i a op F (fun d t size => B op d t size (or_introl eq_refl))) as (l1 & E1 & S1).
  destruct (IH false (fun o d t size I => B o d t size (or_intror I))) as (l2 & E2 & S2).
  rewrite E1, E2. eexists. split; [reflexivity|]. intros x.
  rewrite !in_app_iff, (imm_notes_spec n r i a op x), (reg_notes_spec n r i a op x),
    (reg_offset_notes_spec n r i a op x F1 F2), S1, S2. split.
  - intros H. destruct H as [[H _]|[[H _]|[[H _]|[[H _]|(k & o & E & H)]]]];
      try (exists O, op; split; [reflexivity|]; cbn [Nat.eqb]; rewrite andb_true_r; exact H).
    exists (S k), o. split; [exact E|]. cbn [Nat.eqb]. rewrite andb_false_r. exact H.
  - intros ([|k] & o & E & H).
    + cbn in E. injection E as <-. cbn [Nat.eqb] in H. rewrite andb_true_r in H. fold a in H.
      destruct x; auto 10.
    + cbn in E. cbn [Nat.eqb] in H. rewrite andb_false_r in H. do 4 right. exists k, o. now split.
Qed.

Lemma operand_texts_spec r i : forall l ops k s, nth_error l k = Some s ->
  nth_error (operand_texts r i ops l) k = Some (operand_text r i (nth_error ops k) s).
Proof.
  induction l as [|x l IH]; intros ops [|k] s E; try discriminate; cbn [nth_error operand_texts] in *.
  - injection E as ->. now destruct ops.
  - rewrite (IH (tl ops) k s E). now destruct ops; [destruct k|].
Qed.

(** ** Listings *)

Lemma entries_insns insns : forall cfis, insns_of (entries insns cfis) = insns.
Proof.
  unfold insns_of. induction insns as [|i insns IH]; intros cfis; induction cfis as [|c cfis IHc]; cbn [entries].
  - reflexivity.
  - exact IHc.
  - cbn [flat_map]. cbn. f_equal. apply IH.
  - destruct (_ || _).
    + cbn [flat_map]. exact IHc.
    + cbn [flat_map]. cbn. f_equal. apply IH.
Qed.

Lemma entries_cfis insns : forall cfis, cfis_of (entries insns cfis) = cfis.
Proof.
  unfold cfis_of. induction insns as [|i insns IH]; intros cfis; induction cfis as [|c cfis IHc]; cbn [entries].
  - reflexivity.
  - cbn [flat_map]. cbn. f_equal. exact IHc.
  - cbn [flat_map]. apply IH.
  - destruct (_ || _).
    + cbn [flat_map]. cbn. f_equal. exact IHc.
    + cbn [flat_map]. apply IH.
Qed.

Lemma ascending_tail {A} (address : A -> option N) x l : ascending address (x :: l) -> ascending address l.
Proof. intros H p y q z s ->. exact (H (x :: p) y q z s eq_refl). Qed.

Lemma ascending_head {A} (address : A -> option N) x l y a b : ascending address (x :: l) -> In y l ->
  address x = Some a -> address y = Some b -> a <= b.
Proof.
  intros H I Ha Hb. apply in_split in I as (q & s & ->). exact (H [] x q y s eq_refl a b Ha Hb).
Qed.

Lemma in_insns_of l i : In (EInsn i) l -> In i (insns_of l).
Proof. intros H. apply in_flat_map. exists (EInsn i). split; [exact H|now left]. Qed.
Lemma in_cfis_of l c : In (ECfi c) l -> In c (cfis_of l).
Proof. intros H. apply in_flat_map. exists (ECfi c). split; [exact H|now left]. Qed.

Lemma cons_eq {A} (x y : A) l m : x :: l = y :: m -> x = y /\ l = m.
Proof. intros [= -> ->]. now split. Qed.

Lemma entries_cons i insns c cfis : entries (i :: insns) (c :: cfis) =
  if opt64_is_none (fst c) || (fst c <=? in_address i)
  then ECfi c :: entries (i :: insns) cfis else EInsn i :: entries insns (c :: cfis).
Proof. reflexivity. Qed.

Lemma entries_order insns : forall cfis,
  ascending (fun i => Some (in_address i)) insns -> ascending (fun c => opt64_get (fst c)) cfis ->
  forall p x q y s, entries insns cfis = p ++ x :: q ++ y :: s ->
    match x, y with
    | EInsn i, ECfi c => forall a, opt64_get (fst c) = Some a -> in_address i < a
    | ECfi c, EInsn i => forall a, opt64_get (fst c) = Some a -> a <= in_address i
    | _, _ => True
    end.
Proof.
  induction insns as [|i insns IH]; intros cfis; induction cfis as [|c cfis IHc]; intros A C p x q y s E.
  - destruct p; discriminate.
  - assert (Hx : In x (p ++ x :: q ++ y :: s)) by (apply in_or_app; right; now left); rewrite <- E in Hx.
    assert (Hy : In y (p ++ x :: q ++ y :: s)) by (apply in_or_app; right; right; apply in_or_app; right; now left); rewrite <- E in Hy.
    destruct x; [apply in_insns_of in Hx; rewrite entries_insns in Hx; destruct Hx|].
    destruct y; [apply in_insns_of in Hy; rewrite entries_insns in Hy; destruct Hy|exact I].
  - assert (Hx : In x (p ++ x :: q ++ y :: s)) by (apply in_or_app; right; now left); rewrite <- E in Hx.
    assert (Hy : In y (p ++ x :: q ++ y :: s)) by (apply in_or_app; right; right; apply in_or_app; right; now left); rewrite <- E in Hy.
    destruct x; [|apply in_cfis_of in Hx; rewrite entries_cfis in Hx; destruct Hx].
    destruct y; [exact I|apply in_cfis_of in Hy; rewrite entries_cfis in Hy; destruct Hy].
  - rewrite entries_cons in E.
    destruct (opt64_is_none (fst c) || (fst c <=? in_address i)) eqn:T.
    + destruct p as [|e p]; cbn [app] in E; apply cons_eq in E as [<- E].
      * destruct y as [j|d]; [|exact I]. intros a Ha.
        assert (Hj : In (EInsn j) (q ++ EInsn j :: s)) by (apply in_or_app; right; now left); rewrite <- E in Hj.
        apply in_insns_of in Hj. rewrite entries_insns in Hj.
        apply orb_true_iff in T as [T|T].
        { unfold opt64_get in Ha. rewrite T in Ha. discriminate. }
        unfold opt64_get in Ha. destruct (opt64_is_none (fst c)); [discriminate|]. injection Ha as <-.
        apply N.leb_le in T. destruct Hj as [<-|Hj]; [exact T|].
        pose proof (ascending_head _ i insns j _ _ A Hj eq_refl eq_refl). unfold opt64 in *. lia.
      * exact (IHc A (ascending_tail _ _ _ C) p x q y s E).
    + destruct p as [|e p]; cbn [app] in E; apply cons_eq in E as [<- E].
      * destruct y as [j|d]; [exact I|]. intros a Ha.
        assert (Hd : In (ECfi d) (q ++ ECfi d :: s)) by (apply in_or_app; right; now left); rewrite <- E in Hd.
        apply in_cfis_of in Hd. rewrite entries_cfis in Hd.
        apply orb_false_iff in T as [T1 T2]. apply N.leb_gt in T2.
        destruct Hd as [<-|Hd].
        { unfold opt64_get in Ha. rewrite T1 in Ha. now injection Ha as <-. }
        pose proof (ascending_head _ c cfis d (fst c) a C Hd) as H.
        unfold opt64_get at 1 in H. rewrite T1 in H. specialize (H eq_refl Ha). unfold opt64 in *. lia.
      * exact (IH (c :: cfis) (ascending_tail _ _ _ A) C p x q y s E).
Qed.

Lemma listing_spec disasm segments cfis ranges :
  Forall segment_fits segments -> Forall range_ok ranges ->
  Forall (fun r => exists l insns, loaded segments (rbegin r) (rend r - rbegin r) l /\
                     disasm l (rbegin r) = Some insns) ranges ->
  exists result, listing disasm segments cfis ranges = Done result /\
    Forall2 (fun r x => fst x = r /\ exists insns, code_of disasm segments r insns /\
                          snd x = Some (entries insns (cfis r))) ranges result.
Proof.
  intros F R L. induction R as [|r ranges [Hr Hb] R IH]; [exists []; split; [reflexivity|constructor]|].
  inversion L as [|? ? (l & insns & Hl & D) L']; subst. destruct (IH L') as (result & E & S).
  cbn [listing]. pose proof (range_loaded segments (rbegin r) (rend r - rbegin r) F ltac:(lia)) as X.
  rewrite add64_small in X by lia. replace (rbegin r + (rend r - rbegin r)) with (rend r) in X by lia.
  replace (mkRange (rbegin r) (rend r)) with r in X by now destruct r.
  destruct X as [[_ N]|(m & Em & Lm)].
  - exfalso. destruct Hl as (b & s & t & -> & _ & H & _). apply (N s); [apply in_or_app; right; now left|].
    replace (rbegin r + (rend r - rbegin r)) with (rend r) in H by lia. now destruct r.
  - pose proof (loaded_unique _ _ _ _ _ Hl Lm) as <-. rewrite Em, D, E.
    eexists. split; [reflexivity|]. constructor; [|exact S]. split; [reflexivity|].
    exists insns. split; [now apply (co_code disasm segments r l)|reflexivity].
Qed.

(** ** Printing *)

Lemma all_done_spec {A B} (f : A -> outcome B) l : (forall x, In x l -> f x <> Panic) -> all_done (map f l) <> Panic.
Proof.
  induction l as [|x l IH]; [discriminate|]. intros H. cbn [map all_done].
  specialize (IH (fun y I => H y (or_intror I))). pose proof (H x (or_introl eq_refl)) as Hx.
  destruct (f x); [|congruence]. destruct (all_done (map f l)); [discriminate|congruence].
Qed.

Lemma listing_done disasm segments cfis ranges : Forall segment_fits segments -> Forall range_ok ranges ->
  exists result, listing disasm segments cfis ranges = Done result /\
    forall x es, In x result -> snd x = Some es -> exists l a insns, disasm l a = Some insns /\ insns_of es = insns.
Proof.
  intros F R. induction R as [|r ranges [Hr Hb] R (result & E & S)]; [exists []; split; [reflexivity|intros x es []]|].
  cbn [listing]. pose proof (range_loaded segments (rbegin r) (rend r - rbegin r) F ltac:(lia)) as X.
  rewrite add64_small in X by lia. replace (rbegin r + (rend r - rbegin r)) with (rend r) in X by lia.
  replace (mkRange (rbegin r) (rend r)) with r in X by now destruct r.
  destruct X as [[-> _]|(l & -> & L)].
  { eexists. split; [reflexivity|]. intros x es [<-|[]]. discriminate. }
  destruct (disasm l (rbegin r)) as [insns|] eqn:D.
  - rewrite E. eexists. split; [reflexivity|]. intros x es [<-|I].
    + cbn [snd]. intros [= <-]. exists l, (rbegin r), insns. split; [exact D|apply entries_insns].
    + now apply S.
  - eexists. split; [reflexivity|]. intros x es [<-|[]]. discriminate.
Qed.

Lemma instructions_done fid vid rn disasm cfis n ranges :
  Forall good_segment (nm_regions n) ->
  Forall local_fits (nm_parameters n) -> Forall local_fits (nm_variables n) -> Forall range_ok ranges ->
  (forall l a insns, disasm l a = Some insns -> Forall reads_fit insns) ->
  instructions_doc fid vid rn disasm cfis n ranges <> Panic.
Proof.
  intros F F1 F2 R D. unfold instructions_doc.
  destruct (listing_done disasm (nm_regions n) cfis ranges (fits_of _ F) R) as (result & E & S). rewrite E.
  match goal with |- context [all_done (map ?f result)] => pose proof (all_done_spec f result) as X end.
  match type of X with ?A -> _ => assert (A) as Y end.
  { intros [r es] I. cbn [fst snd].
    assert (Z : all_done (map (entry_doc fid vid rn n r) (match es with Some es => es | None => [] end)) <> Panic).
    { apply all_done_spec. destruct es as [es|]; [|intros x []].
      destruct (S (r, Some es) es I eq_refl) as (l & a & insns & Hd & Hi).
      intros [i|c] Ie; cbn [entry_doc]; [|discriminate]. unfold instruction_doc.
      assert (Ri : reads_fit i).
      { pose proof (D l a insns Hd) as G. rewrite Forall_forall in G. apply G. rewrite <- Hi. now apply in_insns_of. }
      destruct (operand_notes_spec n r i F F1 F2 (in_operands i) true Ri) as (ns & En & _). unfold notes. rewrite En.
      discriminate. }
    destruct (all_done (map (entry_doc fid vid rn n r) _)); [discriminate|congruence]. }
  specialize (X Y). destruct (all_done _); [discriminate|congruence].
Qed.
