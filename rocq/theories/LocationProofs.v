(** Proofs about location expressions. *)
From Coq Require Import List NArith ZArith Bool Lia Arith.
From Verif Require Import Base BaseProofs RangeModel TypeModel CfiModel CfiSpec CfiProofs LocationModel LocationSpec.
Import ListNotations.
Local Open Scope Z_scope.

Lemma Forall2_len {A B} (R : A -> B -> Prop) l m : Forall2 R l m -> List.length l = List.length m.
Proof. induction 1; cbn; auto. Qed.

Section Sound.
  Variable E : environment.
  Variable address : N -> option N.
  Hypothesis I : indexes E address.
  Hypothesis SIZE : (en_address_size E <= 8)%N.
  Local Notation size := (en_address_size E).
  Local Notation w := (word E).

  Lemma modulus_pos : 0 < 2 ^ (8 * Z.of_N size).
  Proof. apply Z.pow_pos_nonneg; lia. Qed.
  Lemma word_word z : w (w z) = w z.
  Proof. unfold word. apply Z.mod_mod. pose proof modulus_pos. lia. Qed.
  Lemma word_add a b : w (w a + b) = w (a + b).
  Proof. unfold word. apply Zplus_mod_idemp_l. Qed.
  Lemma word_add_r a b : w (a + w b) = w (a + b).
  Proof. unfold word. apply Zplus_mod_idemp_r. Qed.
  Lemma word_64 z : w (z mod 2 ^ 64) = w z.
  Proof.
    unfold word. symmetry.
    assert (D : (2 ^ (8 * Z.of_N size) | 2 ^ 64)).
    { exists (2 ^ (64 - 8 * Z.of_N size)). rewrite <- Z.pow_add_r by lia. f_equal. lia. }
    destruct D as [q D]. rewrite D. pose proof modulus_pos.
    rewrite (Z.div_mod z (q * 2 ^ (8 * Z.of_N size))) at 1 by lia.
    rewrite <- Z.add_mod_idemp_l by lia.
    replace (q * 2 ^ (8 * Z.of_N size) * (z / (q * 2 ^ (8 * Z.of_N size)))) with
      (q * (z / (q * 2 ^ (8 * Z.of_N size))) * 2 ^ (8 * Z.of_N size)) by ring.
    rewrite Z.mod_mul by lia. reflexivity.
  Qed.
  Lemma of_as_u64 z : Z.of_N (as_u64 z) = z mod 2 ^ 64.
  Proof. unfold as_u64. rewrite Z2N.id; [reflexivity|]. apply Z.mod_pos_bound. reflexivity. Qed.
  Lemma word_as_u64 z : w (Z.of_N (as_u64 z)) = w z.
  Proof. rewrite of_as_u64. apply word_64. Qed.
  Lemma word_add64 a b : w (Z.of_N (add64 a b)) = w (Z.of_N a + Z.of_N b).
  Proof.
    unfold add64, wrap64. rewrite N2Z.inj_mod, N2Z.inj_add. change (Z.of_N two64) with (2 ^ 64). apply word_64.
  Qed.
  Lemma word_mask n : (n < 2 ^ 64)%N -> w (Z.of_N (N.land n (addr_mask size))) = w (Z.of_N n).
  Proof.
    intros B. unfold addr_mask. destruct (N.eqb_spec size 8) as [S8|S8].
    - change u64_max with (N.ones 64). rewrite N.land_ones, N.mod_small by exact B. reflexivity.
    - replace (N.shiftl 1 (8 * size) - 1)%N with (N.ones (8 * size)) by (unfold N.ones; lia).
      rewrite N.land_ones, N2Z.inj_mod, N2Z.inj_pow, N2Z.inj_mul. unfold word. change (Z.of_N 8) with 8. change (Z.of_N 2) with 2.
      apply Z.mod_mod. pose proof modulus_pos. lia.
  Qed.
  Lemma word_residue x y : residue x = residue y -> w x = w y.
  Proof. intros R. rewrite <- (word_64 x), <- (word_64 y). unfold residue in R. now rewrite R. Qed.
  Lemma word_as_i64 z : w (as_i64 z) = w z.
  Proof. apply word_residue, as_i64_residue. Qed.
  Lemma add64_bound a b : (add64 a b < 2 ^ 64)%N.
  Proof. unfold add64, wrap64. apply N.mod_lt. discriminate. Qed.
  Lemma add_offset_word base o c :
    w (base + add_offset size o c) = w (w (base + o) + Z.of_N c).
  Proof.
    unfold add_offset. rewrite <- word_add_r, word_as_i64, word_mask, word_add64 by apply add64_bound.
    rewrite <- (word_add (Z.of_N (as_u64 o))), word_as_u64, !word_add, word_add_r. f_equal. lia.
  Qed.

  Definition stands (l : location) (z : Z) : Prop :=
    l = LOther \/ exists n, number E l = Some n /\ z = w n.

  Ltac known := right; eexists; split; [reflexivity|]; cbn [number]; rewrite ?word_word; try reflexivity.

  Lemma plus_constant_stands l z c : stands l z -> stands (plus_constant size l c) (w (z + Z.of_N c)).
  Proof.
    intros [->|(n & N & ->)]; [now left|].
    destruct l; cbn [plus_constant]; try (now left); injection N as <-; known.
    - rewrite word_mask, word_add64, word_add by apply add64_bound. reflexivity.
    - now rewrite add_offset_word.
    - now rewrite add_offset_word.
    - now rewrite add_offset_word.
  Qed.

  Lemma Forall2_nth l zs i z : Forall2 stands l zs -> nth_error zs i = Some z ->
    exists x, nth_error l i = Some x /\ stands x z.
  Proof.
    intros F. revert i. induction F as [|x y l zs S F IH]; intros [|i] N; cbn in N; try discriminate.
    - injection N as ->. exists x. auto.
    - apply IH. exact N.
  Qed.

  Lemma step_computes o l zs zs' :
    is_sum o = false -> Forall2 stands l zs -> computes E o zs zs' ->
    exists l', step size address o l = Stack l' /\ Forall2 stands l' zs'.
  Proof.
    intros NS F C. destruct C; try discriminate NS; cbn [step].
    - exists l. auto.
    - exists l. auto.
    - eexists. split; [reflexivity|]. constructor; [now left|exact F].
    - eexists. split; [reflexivity|]. constructor; [known|exact F].
    - eexists. split; [reflexivity|]. constructor; [known|exact F]. now rewrite word_as_u64.
    - eexists. split; [reflexivity|]. constructor; [known|exact F].
    - eexists. split; [reflexivity|]. constructor; [known|exact F].
    - eexists. split; [reflexivity|]. constructor; [known|exact F]. now rewrite Z.add_0_r.
    - eexists. split; [reflexivity|]. constructor; [known|exact F].
    - destruct (address i) as [a|] eqn:A.
      + eexists. split; [reflexivity|]. constructor; [|exact F]. rewrite (I i a A). known.
      + eexists. split; [reflexivity|]. constructor; [now left|exact F].
    - inversion F as [|x' y' l' zs' S F' E1 E2]; subst. destruct S as [->|(n & N & ->)].
      + eexists. split; [reflexivity|]. constructor; [now left|exact F'].
      + destruct x'; eexists; (split; [reflexivity|]); (constructor; [|exact F']); try now left.
        injection N as <-. known.
    - inversion F; subst. eexists. split; [reflexivity|assumption].
    - inversion F as [|a b l1 z1 S1 F1]; subst. inversion F1 as [|c d l2 z2 S2 F2]; subst.
      eexists. split; [reflexivity|]. repeat (constructor; [assumption|]). assumption.
    - inversion F as [|a b l1 z1 S1 F1]; subst. inversion F1 as [|c d l2 z2 S2 F2]; subst.
      inversion F2 as [|e f l3 z3 S3 F3]; subst.
      eexists. split; [reflexivity|]. repeat (constructor; [assumption|]). assumption.
    - destruct (Forall2_nth _ _ _ _ F H) as (y & N & S). rewrite N. eexists. split; [reflexivity|]. constructor; assumption.
    - inversion F as [|a b l1 z1 S1 F1]; subst. eexists. split; [reflexivity|]. constructor; [|exact F1].
      now apply plus_constant_stands.
    - inversion F as [|a b l1 z1 S1 F1]; subst. eexists. split; [reflexivity|]. constructor; [now left|exact F1].
    - inversion F as [|a b l1 z1 S1 F1]; subst. inversion F1 as [|c d l2 z2 S2 F2]; subst.
      eexists. split; [reflexivity|]. constructor; [now left|exact F2].
    - inversion F as [|a b l1 z1 S1 F1]; subst. eexists. split; [reflexivity|]. constructor; [now left|exact F1].
    - inversion F as [|a b l1 z1 S1 F1]; subst. inversion F1 as [|c d l2 z2 S2 F2]; subst.
      eexists. split; [reflexivity|]. constructor; [now left|exact F2].
  Qed.

  Lemma stands_memory l z : stands l z -> right_place E l false (Memory z).
  Proof.
    intros S. split; [split; [discriminate|intros [X|[v X]]; discriminate]|].
    destruct S as [->|(n & N & ->)]; [exact Logic.I|]. destruct l; try discriminate N; exists n; auto.
  Qed.
  Lemma stands_value l z : stands l z -> right_place E l true (Value z).
  Proof.
    intros S. split; [split; [eauto|reflexivity]|].
    destruct S as [->|(n & N & ->)]; [exact Logic.I|]. destruct l; try discriminate N; exists n; auto.
  Qed.

  Lemma step_gives o l zs p zs' :
    Forall2 stands l zs -> gives o zs p zs' ->
    exists x v l', step size address o l = Found x v l' /\ Forall2 stands l' zs' /\ right_place E x v p.
  Proof.
    intros F G. destruct G; cbn [step].
    - exists (LRegister r), false, l. split; [reflexivity|]. split; [exact F|].
      split; [split; [discriminate|intros [X|[v X]]; discriminate]|reflexivity].
    - exists LOther, true, l. split; [reflexivity|]. split; [exact F|]. split; [split; auto|exact Logic.I].
    - exists LOther, false, l. split; [reflexivity|]. split; [exact F|].
      split; [split; [discriminate|intros [X|[v X]]; discriminate]|exact Logic.I].
    - inversion F as [|a b l1 z1 S1 F1]; subst. exists a, true, l1. split; [reflexivity|]. split; [exact F1|].
      now apply stands_value.
    - exists LOther, false, l. split; [reflexivity|]. split; [exact F|].
      split; [split; [discriminate|intros [X|[v X]]; discriminate]|exact Logic.I].
  Qed.
  Lemma gives_not_piece o zs p zs' : gives o zs p zs' -> forall n off, o <> OPiece n off.
  Proof. intros [] n off; discriminate. Qed.
  Lemma computes_not_piece o zs zs' : computes E o zs zs' -> forall n off, o <> OPiece n off.
  Proof. intros [] n off; discriminate. Qed.

  Lemma run_cons o ops l st :
    (forall n off, o <> OPiece n off) ->
    run size address (o :: ops) l st =
      match step size address o l with
      | Error => None
      | Stop => Some (fst st)
      | Stack s => run size address ops s st
      | Found x v s =>
          match ops with
          | [] => match fst st with [] => Some (fst (add_piece st x 0 v opt64_none)) | _ => None end
          | OPiece n off :: ops'' => run size address ops'' s (add_piece st x (unwrap_or_0 off) v n)
          | _ => None
          end
      end.
  Proof. intros NP. destruct o; try reflexivity. exfalso. eapply NP. reflexivity. Qed.

  Lemma add_parts st parts x off v n p m :
    Forall2 (right_part E) (fst st) parts -> right_place E x v p -> n = match m with Some n => n | None => opt64_none end ->
    Forall2 (right_part E) (fst (add_piece st x off v n)) (parts ++ [(p, m, off)]).
  Proof.
    destruct st as [ps next]. intros F R ->. cbn [add_piece fst]. apply Forall2_app; [exact F|].
    constructor; [|constructor]. cbn. auto.
  Qed.

  (** The code's run is a prefix of the machine's. *)
  Lemma run_sound ops zs parts result : runs E ops zs parts result -> forall l st,
    without is_sum ops -> Forall2 stands l zs -> Forall2 (right_part E) (fst st) parts ->
    exists pieces before after, run size address ops l st = Some pieces /\ result = before ++ after /\
      Forall2 (right_part E) pieces before /\ (without is_jump ops -> after = []).
  Proof.
    induction 1 as [|x s|s parts NE|o s s' ops parts result C R IH|n off x s ops parts result R IH
                    |n off ops parts result R IH|o s p s' G|o s p s' n off ops parts result G R IH
                    |k ops s ops' s' parts result R IH]; intros l st NS F P.
    - inversion F; subst. destruct st as [ps next]. cbn [fst] in P. inversion P; subst.
      exists [], [], []. auto.
    - inversion F as [|a b l1 z1 S1 F1]; subst. destruct st as [ps next]. cbn [fst] in P. inversion P; subst.
      eexists _, [(Memory x, None, 0%N)], []. split; [reflexivity|]. split; [reflexivity|]. split; [|auto].
      apply (add_parts ([], next) [] a 0%N false opt64_none (Memory x) None); [constructor|now apply stands_memory|reflexivity].
    - exists (fst st), parts, []. split; [|rewrite app_nil_r; auto].
      cbn [run]. destruct (fst st) as [|y ps]; [inversion P; subst; contradiction|reflexivity].
    - destruct (step_computes o l s s') as (l' & ST & F'); [apply NS; now left|exact F|exact C|].
      destruct (IH l' st) as (pieces & b & a & E1 & E2 & E3 & E4); [intros q IN; apply NS; now right|exact F'|exact P|].
      exists pieces, b, a. rewrite run_cons by (eapply computes_not_piece; exact C). rewrite ST.
      repeat split; auto. intros NJ. apply E4. intros q IN. apply NJ. now right.
    - inversion F as [|y z l1 z1 S1 F1]; subst.
      destruct (IH l1 (add_piece st y (unwrap_or_0 off) false n)) as (pieces & b & a & E1 & E2 & E3 & E4);
        [intros q IN; apply NS; now right|exact F1|apply add_parts; [exact P|now apply stands_memory|reflexivity]|].
      exists pieces, b, a. repeat split; auto. intros NJ. apply E4. intros q IN. apply NJ. now right.
    - inversion F; subst.
      destruct (IH [] (add_piece st LEmpty (unwrap_or_0 off) false n)) as (pieces & b & a & E1 & E2 & E3 & E4);
        [intros q IN; apply NS; now right|constructor| |].
      { apply add_parts; [exact P| |reflexivity].
        split; [split; [discriminate|intros [X|[v X]]; discriminate]|reflexivity]. }
      exists pieces, b, a. repeat split; auto. intros NJ. apply E4. intros q IN. apply NJ. now right.
    - destruct (step_gives o l s p s' F G) as (x & v & l' & ST & F' & RP).
      destruct st as [ps next]. cbn [fst] in P. inversion P; subst.
      eexists _, [(p, None, 0%N)], []. rewrite run_cons by (eapply gives_not_piece; exact G). rewrite ST. cbn [fst].
      split; [reflexivity|]. split; [reflexivity|]. split; [|auto].
      apply (add_parts ([], next) [] x 0%N v opt64_none p None); [constructor|exact RP|reflexivity].
    - destruct (step_gives o l s p s' F G) as (x & v & l' & ST & F' & RP).
      destruct (IH l' (add_piece st x (unwrap_or_0 off) v n)) as (pieces & b & a & E1 & E2 & E3 & E4);
        [intros q IN; apply NS; now do 2 right|exact F'|apply add_parts; auto|].
      exists pieces, b, a. rewrite run_cons by (eapply gives_not_piece; exact G). rewrite ST.
      repeat split; auto. intros NJ. apply E4. intros q IN. apply NJ. now do 2 right.
    - exists (fst st), parts, (skipn (List.length parts) result). split; [reflexivity|].
      assert (PRE : exists rest, result = parts ++ rest).
      { clear - R. induction R; try (exists []; rewrite ?app_nil_r; reflexivity); try assumption;
          try (destruct IHR as [rest ->]; rewrite <- app_assoc; eauto); eexists; reflexivity. }
      destruct PRE as [rest ->]. rewrite skipn_app, skipn_all, Nat.sub_diag. cbn [skipn app].
      repeat split; auto. intros NJ. specialize (NJ (OJump k) (or_introl eq_refl)). discriminate.
  Qed.

  (** If the code gives a result, so does the machine. *)
  Lemma pops_some n (l : list location) s : pops n l = Some s -> (n <= List.length l)%nat /\ s = skipn n l.
  Proof.
    unfold pops. destruct (Nat.ltb_spec (List.length l) n); [discriminate|]. intros [= <-]. auto.
  Qed.
  Ltac split_stack F :=
    match type of F with
    | Forall2 _ (_ :: _) _ => let F' := fresh "F" in inversion F as [|? ? ? ? ? F' ? ?]; subst
    | Forall2 _ [] _ => inversion F; subst
    end.
  Lemma step_stack o l s zs : step size address o l = Stack s -> Forall2 stands l zs -> exists zs', computes E o zs zs'.
  Proof.
    intros ST F. destruct o; cbn [step] in ST; try discriminate; unfold pop_push in ST;
      try (eexists; constructor; fail);
      repeat match type of ST with
        | match ?m with _ => _ end = _ => destruct m eqn:?; try discriminate
        end;
      repeat match goal with H : Forall2 stands (_ :: _) _ |- _ => inversion H; clear H; subst end;
      try (eexists; constructor; fail).
    - pose proof (Forall2_len _ _ _ F) as L. assert (X : nth_error l i <> None) by congruence.
      apply nth_error_Some in X. rewrite L in X. apply nth_error_Some in X.
      destruct (nth_error zs i) as [z|] eqn:N; [|congruence]. exists (z :: zs). now constructor.
    - destruct (pops_some _ _ _ Heqo) as [L _]. pose proof (Forall2_len _ _ _ F) as L'.
      destruct zs as [|a [|b zs]]; cbn in *; try lia. eexists. constructor.
    - destruct (pops_some _ _ _ Heqo) as [L _]. pose proof (Forall2_len _ _ _ F) as L'.
      destruct zs as [|a [|b zs]]; cbn in *; try lia. eexists. constructor.
    - destruct (pops_some _ _ _ Heqo) as [L _]. pose proof (Forall2_len _ _ _ F) as L'.
      destruct zs as [|a zs]; cbn in *; try lia. eexists. constructor.
    - destruct (pops_some _ _ _ Heqo) as [L _]. pose proof (Forall2_len _ _ _ F) as L'.
      destruct zs as [|a [|b zs]]; cbn in *; try lia. eexists. constructor.
    - destruct (pops_some _ _ _ Heqo) as [L _]. pose proof (Forall2_len _ _ _ F) as L'. destruct space.
      + destruct zs as [|a [|b zs]]; cbn in *; try lia. eexists. constructor.
      + destruct zs as [|a zs]; cbn in *; try lia. eexists. constructor.
  Qed.
  Lemma step_found o l x v s zs : step size address o l = Found x v s -> Forall2 stands l zs ->
    exists p zs', gives o zs p zs'.
  Proof.
    intros ST F. destruct o; cbn [step] in ST; try discriminate; unfold pop_push in ST;
      try (eexists _, _; constructor; fail);
      repeat match type of ST with
        | match ?m with _ => _ end = _ => destruct m eqn:?; try discriminate
        end.
    inversion F; subst. eexists _, _. constructor.
  Qed.
  Lemma step_stop o l : step size address o l = Stop -> is_jump o = true.
  Proof.
    intros ST. destruct o; cbn [step] in ST; try discriminate; unfold pop_push in ST; try reflexivity;
      repeat match type of ST with
        | match ?m with _ => _ end = _ => destruct m eqn:?; try discriminate
        end.
  Qed.

  Lemma run_complete : forall n ops l st zs parts pieces, (List.length ops <= n)%nat ->
    without is_sum ops -> without is_jump ops ->
    Forall2 stands l zs -> List.length parts = List.length (fst st) ->
    run size address ops l st = Some pieces -> exists result, runs E ops zs parts result.
  Proof.
    induction n as [|n IH]; intros ops l st zs parts pieces L NS NJ F P R.
    - destruct ops; [|cbn in L; lia]. destruct parts as [|p parts]; [|eexists; apply r_parts; discriminate].
      destruct zs; eexists; constructor.
    - destruct ops as [|o ops].
      + destruct parts as [|p parts]; [|eexists; apply r_parts; discriminate]. destruct zs; eexists; constructor.
      + cbn [List.length] in L. assert (NS' : without is_sum ops) by (intros q IN; apply NS; now right).
        assert (NJ' : without is_jump ops) by (intros q IN; apply NJ; now right).
        assert (D : (exists k off, o = OPiece k off) \/ (forall k off, o <> OPiece k off)).
        { destruct o; try (right; intros; discriminate). left. eauto. }
        destruct D as [(k & off & ->)|NP].
        * cbn [run] in R. destruct l as [|x l].
          -- inversion F; subst.
             destruct (IH ops [] (add_piece st LEmpty (unwrap_or_0 off) false k) [] (parts ++ [(Nowhere, Some k, unwrap_or_0 off)]) pieces)
               as [result RR]; auto; [lia| |exists result; now constructor].
             destruct st. cbn [add_piece fst] in *. rewrite !app_length. cbn. lia.
          -- inversion F as [|y z l1 z1 S1 F1]; subst.
             destruct (IH ops l (add_piece st x (unwrap_or_0 off) false k) z1 (parts ++ [(Memory z, Some k, unwrap_or_0 off)]) pieces)
               as [result RR]; auto; [lia| |exists result; now constructor].
             destruct st. cbn [add_piece fst] in *. rewrite !app_length. cbn. lia.
        * rewrite run_cons in R by exact NP. destruct (step size address o l) as [| |s|x v s] eqn:ST; try discriminate.
          -- apply step_stop in ST. rewrite (NJ o (or_introl eq_refl)) in ST. discriminate.
          -- destruct (step_stack o l s zs ST F) as [zs' C].
             destruct (step_computes o l zs zs' (NS o (or_introl eq_refl)) F C) as (s' & ST' & F').
             rewrite ST in ST'. injection ST' as <-.
             destruct (IH ops s st zs' parts pieces) as [result RR]; auto; [lia|]. exists result. econstructor; eauto.
          -- destruct (step_found o l x v s zs ST F) as (p & zs' & G).
             destruct (step_gives o l zs p zs' F G) as (x' & v' & s' & ST' & F' & RP).
             rewrite ST in ST'. injection ST' as <- <- <-.
             destruct ops as [|q ops].
             ++ destruct (fst st) eqn:FS; [|discriminate]. destruct parts; [|discriminate].
                eexists. eapply r_place. exact G.
             ++ destruct q; try discriminate.
                destruct (IH ops s (add_piece st x (unwrap_or_0 bit_offset) v size_in_bits) zs'
                  (parts ++ [(p, Some size_in_bits, unwrap_or_0 bit_offset)]) pieces) as [result RR]; auto.
                ** cbn in L. lia.
                ** intros q IN. apply NS. now do 2 right.
                ** intros q IN. apply NJ. now do 2 right.
                ** destruct st. cbn [add_piece fst] in *. rewrite !app_length. cbn. lia.
                ** exists result. eapply r_place_piece; eauto.
  Qed.
End Sound.

(** ** Offsets of parts *)

Definition sizes (l : list piece) : N :=
  fold_right N.add 0%N (map (fun p => match opt64_get (pc_bit_size p) with Some n => n | None => 0%N end) l).
Lemma follow_snoc l p : forall start, follow start l ->
  pc_bit_offset p = ((start + sizes l) mod 2 ^ 64)%N -> follow start (l ++ [p]).
Proof.
  induction l as [|x l IH]; intros start F H.
  - cbn in *. rewrite N.add_0_r in H. auto.
  - destruct F as [A B]. cbn [app follow]. split; [exact A|]. apply IH; [exact B|].
    rewrite H. unfold sizes. cbn [map fold_right]. now rewrite N.add_assoc.
Qed.
Definition good (st : list piece * N) : Prop :=
  follow 0 (fst st) /\ snd st = (sizes (fst st) mod 2 ^ 64)%N.
Lemma add_good st l off v n : good st -> good (add_piece st l off v n).
Proof.
  destruct st as [ps next]. intros [F S]. cbn [fst snd add_piece] in *. split.
  - apply follow_snoc; [exact F|exact S].
  - subst next. cbn [fst snd]. unfold sizes. rewrite map_app, fold_right_app. cbn [map fold_right pc_bit_size].
    unfold add64, wrap64, unwrap_or_0. change two64 with (2 ^ 64)%N.
    rewrite N.add_mod_idemp_l by discriminate. f_equal.
    generalize (match opt64_get n with Some n0 => n0 | None => 0%N end). clear. intros k.
    induction (map (fun p => match opt64_get (pc_bit_size p) with Some m => m | None => 0%N end) ps) as [|a l IH]; cbn; lia.
Qed.

Lemma run_pieces size address : forall n ops l st pieces, (List.length ops <= n)%nat ->
  good st -> run size address ops l st = Some pieces -> follow 0 pieces.
Proof.
  induction n as [|n IH]; intros ops l st pieces L G R.
  - destruct ops; [|cbn in L; lia]. cbn [run] in R. destruct (fst st) eqn:FS; [destruct l|].
    + injection R as <-. exact Logic.I.
    + injection R as <-. apply (add_good st), G.
    + injection R as <-. rewrite <- FS. apply G.
  - destruct ops as [|o ops].
    + apply (IH [] l st); [cbn; lia|exact G|exact R].
    + cbn [List.length] in L.
      assert (D : (exists k off, o = OPiece k off) \/ (forall k off, o <> OPiece k off)).
      { destruct o; try (right; intros; discriminate). left. eauto. }
      destruct D as [(k & off & ->)|NP].
      * cbn [run] in R. destruct l; (eapply IH; [|apply add_good; exact G|exact R]); lia.
      * assert (RC : run size address (o :: ops) l st =
          match step size address o l with
          | Error => None
          | Stop => Some (fst st)
          | Stack s => run size address ops s st
          | Found x v s =>
              match ops with
              | [] => match fst st with [] => Some (fst (add_piece st x 0 v opt64_none)) | _ => None end
              | OPiece n off :: ops'' => run size address ops'' s (add_piece st x (unwrap_or_0 off) v n)
              | _ => None
              end
          end).
        { destruct o; try reflexivity. exfalso. eapply NP. reflexivity. }
        rewrite RC in R. clear RC. destruct (step size address o l) as [| |s|x v s]; try discriminate.
        -- injection R as <-. apply G.
        -- eapply IH; [|exact G|exact R]. lia.
        -- destruct ops as [|q ops].
           ++ destruct (fst st); [|discriminate]. injection R as <-. apply (add_good st), G.
           ++ destruct q; try discriminate. eapply IH; [|apply add_good; exact G|exact R]. cbn in L. lia.
Qed.

Definition sized (p : piece) : Prop := pc_bit_size p <> opt64_none.
Definition pieces_sized (ops : list op) : Prop := forall n off, In (OPiece n off) ops -> n <> opt64_none.
Lemma add_sized st l off v n : Forall sized (fst st) -> n <> opt64_none -> Forall sized (fst (add_piece st l off v n)).
Proof.
  destruct st. intros F N. cbn [add_piece fst]. apply Forall_app. split; [exact F|]. constructor; [exact N|constructor].
Qed.
Lemma run_whole size address : forall n ops l st pieces, (List.length ops <= n)%nat ->
  pieces_sized ops -> Forall sized (fst st) -> run size address ops l st = Some pieces ->
  Forall sized pieces \/ exists p, pieces = [p].
Proof.
  induction n as [|n IH]; intros ops l st pieces L Z G R.
  - destruct ops; [|cbn in L; lia]. cbn [run] in R. destruct st as [ps next]. cbn [fst] in *. destruct ps; [destruct l|].
    + injection R as <-. left. constructor.
    + injection R as <-. right. eexists. reflexivity.
    + injection R as <-. left. exact G.
  - destruct ops as [|o ops].
    + apply (IH [] l st); auto. cbn. lia.
    + cbn [List.length] in L. assert (Z' : pieces_sized ops) by (intros k off IN; apply (Z k off); now right).
      assert (D : (exists k off, o = OPiece k off) \/ (forall k off, o <> OPiece k off)).
      { destruct o; try (right; intros; discriminate). left. eauto. }
      destruct D as [(k & off & ->)|NP].
      * cbn [run] in R. assert (K : k <> opt64_none) by (apply (Z k off); now left).
        destruct l; (eapply IH; [|exact Z'|apply add_sized; [exact G|exact K]|exact R]); lia.
      * assert (RC : run size address (o :: ops) l st =
          match step size address o l with
          | Error => None
          | Stop => Some (fst st)
          | Stack s => run size address ops s st
          | Found x v s =>
              match ops with
              | [] => match fst st with [] => Some (fst (add_piece st x 0 v opt64_none)) | _ => None end
              | OPiece n off :: ops'' => run size address ops'' s (add_piece st x (unwrap_or_0 off) v n)
              | _ => None
              end
          end).
        { destruct o; try reflexivity. exfalso. eapply NP. reflexivity. }
        rewrite RC in R. clear RC. destruct (step size address o l) as [| |s|x v s]; try discriminate.
        -- injection R as <-. left. exact G.
        -- eapply IH; [|exact Z'|exact G|exact R]. lia.
        -- destruct ops as [|q ops].
           ++ destruct st as [ps next]. cbn [fst] in *. destruct ps; [|discriminate]. injection R as <-. right. eexists. reflexivity.
           ++ destruct q; try discriminate. eapply IH; [| |apply add_sized; [exact G|]|exact R].
              ** cbn in L. lia.
              ** intros k off IN. apply (Z k off). now do 2 right.
              ** apply (Z size_in_bits bit_offset). right. now left.
Qed.

(** ** Addresses of variables *)

(** The addresses that are not values, in order. *)
Definition fixed (l : list piece) : list (N * opt64) :=
  flat_map (fun p => if pc_is_value p then [] else
    match pc_location p with LAddress a => [(a, pc_bit_size p)] | _ => [] end) l.
Lemma use_kept l : forall v, lv_address v <> opt64_none -> fold_left use_piece l v = v.
Proof.
  induction l as [|p l IH]; intros v NN; [reflexivity|]. cbn [fold_left]. rewrite IH.
  - unfold use_piece. destruct (pc_is_value p); [reflexivity|]. destruct (pc_location p); try reflexivity.
    unfold opt64_is_none. destruct (N.eqb_spec (lv_address v) opt64_none); [contradiction|reflexivity].
  - unfold use_piece. destruct (pc_is_value p); [exact NN|]. destruct (pc_location p); try exact NN.
    unfold opt64_is_none. destruct (N.eqb_spec (lv_address v) opt64_none); [contradiction|exact NN].
Qed.
Lemma use_locations l : forall v, lv_locations (fold_left use_piece l v) = lv_locations v.
Proof.
  induction l as [|p l IH]; intros v; [reflexivity|]. cbn [fold_left]. rewrite IH.
  unfold use_piece. destruct (pc_is_value p); [reflexivity|]. destruct (pc_location p); try reflexivity.
  now destruct (negb (opt64_is_none (lv_address v))).
Qed.
Lemma use_first l : forall v, lv_address v = opt64_none ->
  (forall a n, In (a, n) (fixed l) -> a <> opt64_none) ->
  let v' := fold_left use_piece l v in
  lv_address v' = match fixed l with [] => opt64_none | (a, _) :: _ => a end /\
  lv_size v' = match fixed l with
               | [] => lv_size v
               | (_, n) :: _ => match opt64_get n with Some k => div_ceil k 8 | None => lv_size v end
               end.
Proof.
  induction l as [|p l IH]; intros v N A; cbn zeta; [auto|]. cbn [fold_left].
  assert (STEP : use_piece v p = match (if pc_is_value p then [] else
    match pc_location p with LAddress a => [(a, pc_bit_size p)] | _ => [] end) with
    | [] => v
    | (a, n) :: _ => mkLocal a match opt64_get n with Some k => div_ceil k 8 | None => lv_size v end (lv_locations v)
    end).
  { unfold use_piece. destruct (pc_is_value p); [reflexivity|]. destruct (pc_location p); try reflexivity.
    rewrite N. reflexivity. }
  rewrite STEP. clear STEP. unfold fixed in *. cbn [flat_map] in *.
  destruct (if pc_is_value p then [] else
    match pc_location p with LAddress a => [(a, pc_bit_size p)] | _ => [] end) as [|[a n] rest] eqn:X.
  - cbn [app] in *. apply IH; auto.
  - cbn [app] in *. rewrite use_kept; [auto|]. cbn [lv_address]. apply (A a n). now left.
Qed.

Lemma use_shape v w p : lv_address v = lv_address w -> lv_size v = lv_size w ->
  lv_address (use_piece v p) = lv_address (use_piece w p) /\ lv_size (use_piece v p) = lv_size (use_piece w p).
Proof.
  intros A S. unfold use_piece. rewrite A. destruct (pc_is_value p); [auto|]. destruct (pc_location p); auto.
  destruct (negb (opt64_is_none (lv_address w))); [auto|]. cbn. rewrite S. auto.
Qed.
Lemma use_shapes l : forall v w, lv_address v = lv_address w -> lv_size v = lv_size w ->
  lv_address (fold_left use_piece l v) = lv_address (fold_left use_piece l w) /\
  lv_size (fold_left use_piece l v) = lv_size (fold_left use_piece l w).
Proof.
  induction l as [|p l IH]; intros v w A S; [auto|]. cbn [fold_left].
  destruct (use_shape v w p A S) as [A' S']. apply IH; assumption.
Qed.
Definition evaluated size address (l : list (range * list op)) : list (range * piece) :=
  flat_map (fun x => match evaluate size address (snd x) with
                     | Some ps => map (fun p => (fst x, p)) ps
                     | None => []
                     end) l.
Lemma evaluate_locals_fold size address l : forall v,
  let v' := evaluate_locals size address l v in
  let u := fold_left use_piece (map snd (evaluated size address l)) v in
  lv_address v' = lv_address u /\ lv_size v' = lv_size u /\
  lv_locations v' = lv_locations v ++ evaluated size address l.
Proof.
  unfold evaluate_locals. induction l as [|[r ops] l IH]; intros v; cbn zeta; [cbn; rewrite app_nil_r; auto|].
  cbn [fold_left fst snd]. destruct (IH (evaluate_local size address v r ops)) as (A & S & L). clear IH.
  rewrite A, S, L. unfold evaluate_local, evaluated. cbn [flat_map fst snd].
  destruct (evaluate size address ops) as [ps|]; [|auto]. cbn [lv_locations].
  rewrite map_app, map_map, map_id, fold_left_app, use_locations, <- app_assoc.
  edestruct use_shapes as [X Y]; [| |rewrite X, Y; auto]; reflexivity.
Qed.
Lemma evaluate_parameters_fold size address l : forall acc,
  evaluate_parameters size address l acc = acc ++ evaluated size address l.
Proof.
  unfold evaluate_parameters, evaluated. induction l as [|x l IH]; intros acc; cbn [fold_left flat_map]; [now rewrite app_nil_r|].
  rewrite IH. destruct (evaluate size address (snd x)); [now rewrite <- app_assoc|reflexivity].
Qed.
Lemma div_ceil_spec n : (8 * div_ceil n 8 < n + 8 /\ n <= 8 * div_ceil n 8)%N.
Proof.
  unfold div_ceil. pose proof (N.div_mod n 8 ltac:(discriminate)). pose proof (N.mod_lt n 8 ltac:(discriminate)).
  destruct (N.eqb_spec (n mod 8) 0); lia.
Qed.
Lemma variable_location_first pieces :
  variable_location pieces =
    hd_error (flat_map (fun p => match fst p with
                                 | GAddress a => [(a, match snd p with Some n => div_ceil n 8 | None => opt64_none end)]
                                 | _ => [] end) pieces).
Proof.
  unfold variable_location.
  assert (K : forall l r, fold_left
    (fun (result : option (opt64 * opt64)) (p : gimli_piece) =>
       match fst p with
       | GAddress a =>
           match result with
           | Some _ => result
           | None => Some (a, match snd p with Some n => div_ceil n 8 | None => opt64_none end)
           end
       | _ => result
       end) l (Some r) = Some r).
  { induction l as [|p l IH]; intros r; [reflexivity|]. cbn [fold_left]. destruct (fst p); apply IH. }
  induction pieces as [|p l IH]; [reflexivity|]. cbn [fold_left flat_map]. destruct (fst p); cbn [app hd_error].
  - apply K.
  - exact IH.
  - exact IH.
Qed.
