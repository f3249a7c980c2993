(** How names are shortened. *)
From Coq Require Import List Arith NArith Bool String Lia.
From Verif Require Import PrintModel ShortSpec.
Import ListNotations.

Section Short.
  Variable alphanumeric : N -> bool.
  Local Notation step := (short_step alphanumeric).
  Local Notation short := (short_name alphanumeric).

  Lemma brace_split c : is_brace c = false -> N.eqb c 123 = false /\ N.eqb c 125 = false.
  Proof. apply orb_false_iff. Qed.

  Lemma short_outside_only t : Forall (fun c => opens c = false /\ closes c = false /\ is_brace c = false) t ->
    forall r s, fold_left step t (mkShort 0 false 0 r s) = mkShort 0 false 0 (r ++ t) s.
  Proof.
    induction 1 as [|c t (O & C & B) F IH]; intros r s; [cbn; now rewrite app_nil_r|].
    apply brace_split in B. destruct B as [B1 B2]. unfold opens in O. unfold closes in C.
    cbn [fold_left]. unfold short_step at 2. rewrite B1, B2, O, C. cbn [Nat.ltb Nat.leb Nat.eqb]. rewrite IH.
    now rewrite <- app_assoc.
  Qed.

  (** Scanning a text that has brackets. *)
  Fixpoint depth_after (k : nat) (t : text) : nat :=
    match t with
    | [] => k
    | c :: t => depth_after (if opens c then S k else if closes c then pred k else k) t
    end.
  Lemma depth_after_app k a b : depth_after k (a ++ b) = depth_after (depth_after k a) b.
  Proof. revert k. induction a as [|c a IH]; intros k; [reflexivity|]. apply IH. Qed.
  Lemma outside_app k a b : outside k (a ++ b) = outside k a ++ outside (depth_after k a) b.
  Proof.
    revert k. induction a as [|c a IH]; intros k; [reflexivity|]. cbn [app outside depth_after].
    destruct (opens c); [now rewrite IH, <- app_assoc|]. destruct (closes c); now rewrite IH, <- app_assoc.
  Qed.
  Lemma nesting_app k a b : nesting k (a ++ b) = Nat.max (nesting k a) (nesting (depth_after k a) b).
  Proof.
    revert k. induction a as [|c a IH]; intros k; cbn [app nesting depth_after].
    - destruct b; cbn [nesting]; lia.
    - rewrite IH. lia.
  Qed.
  Lemma nesting_ge k a : k <= nesting k a.
  Proof. destruct a; cbn [nesting]; lia. Qed.

  Definition dull (t : text) : Prop := Forall (fun c => opens c = false /\ closes c = false) t.
  Lemma dull_depth k t : dull t -> depth_after k t = k.
  Proof. induction 1 as [|c t (O & C) F IH]; [reflexivity|]. cbn. now rewrite O, C. Qed.
  Lemma dull_outside k t : dull t -> 0 < k -> outside k t = [].
  Proof.
    induction 1 as [|c t (O & C) F IH]; intros K; [reflexivity|]. cbn. rewrite O, C.
    replace (k =? 0) with false by (symmetry; apply Nat.eqb_neq; lia). now apply IH.
  Qed.
  Lemma dull_nesting k t : dull t -> nesting k t = k.
  Proof. induction 1 as [|c t (O & C) F IH]; [reflexivity|]. cbn. rewrite O, C, IH. lia. Qed.
  Lemma dull_app a b : dull a -> dull b -> dull (a ++ b).
  Proof. intros. now apply Forall_app. Qed.
  Lemma dull_one c : opens c = false -> closes c = false -> dull [c].
  Proof. intros. repeat constructor; assumption. Qed.
  Lemma dull_dots : dull (txt "...").
  Proof. repeat constructor. Qed.

  (** The invariant after a text [t] without braces. *)
  Record inv (t : text) (st : short_state) : Prop := {
    inv_brace : sh_brace st = 0;
    inv_generic : sh_generic st = depth_after 0 t;
    inv_depth : depth_after 0 (sh_result st) = Nat.min 2 (sh_generic st);
    inv_s : dull (sh_s st);
    inv_s0 : sh_generic st = 0 -> sh_s st = [];
    inv_outside : outside 0 (sh_result st) = outside 0 t;
    inv_nesting : nesting 0 (sh_result st) <= 2 }.

  Lemma inv_step t st c : is_brace c = false -> inv t st -> inv (t ++ [c]) (step st c).
  Proof.
    intros B [IB IG ID IS I0 IO IN]. apply brace_split in B. destruct B as [B1 B2].
    destruct st as [g col br r s]. cbn [sh_brace sh_generic sh_result sh_s] in *. subst br.
    unfold short_step. rewrite B1, B2. cbn [Nat.ltb Nat.leb].
    assert (OA : outside 0 (t ++ [c]) = outside 0 t ++ outside g [c]) by (rewrite outside_app, IG; reflexivity).
    assert (DA : depth_after 0 (t ++ [c]) = depth_after g [c]) by (rewrite depth_after_app, IG; reflexivity).
    assert (RS : dull s -> outside 0 (r ++ s) = outside 0 r).
    { intros DS. rewrite outside_app, ID. destruct g as [|g]; [rewrite I0 by reflexivity; apply app_nil_r|].
      rewrite (dull_outside _ s) by (auto; lia). now rewrite app_nil_r. }
    assert (RD : depth_after 0 (r ++ s) = Nat.min 2 g) by (rewrite depth_after_app, ID; now apply dull_depth).
    assert (RN : nesting 0 (r ++ s) <= 2) by (rewrite nesting_app, ID, (dull_nesting _ s) by exact IS; lia).
    destruct (N.eqb c 60) eqn:E60.
    { assert (OC : opens c = true) by exact E60.
      assert (OUT : outside g [c] = if g =? 0 then [c] else []) by (cbn; rewrite OC; apply app_nil_r).
      assert (DEP : depth_after g [c] = S g) by (cbn; now rewrite OC).
      assert (ND : forall k, nesting k [c] = S k) by (intros k; cbn; rewrite OC; lia).
      destruct g as [|[|g]]; cbn [Nat.leb Nat.eqb].
      - split; cbn [sh_brace sh_generic sh_result sh_s]; try (rewrite ?DA, ?DEP; reflexivity); try (apply Forall_nil); try discriminate.
        + rewrite depth_after_app, RD. cbn. now rewrite OC.
        + rewrite outside_app, RS, OA, IO by exact IS. rewrite RD. cbn. rewrite OC. reflexivity.
        + rewrite nesting_app, RD, ND. lia.
      - split; cbn [sh_brace sh_generic sh_result sh_s]; try (rewrite ?DA, ?DEP; reflexivity); try (apply Forall_nil); try discriminate.
        + rewrite depth_after_app, depth_after_app, RD. cbn. now rewrite OC.
        + rewrite <- app_assoc, outside_app, RS, OA, IO by exact IS. rewrite RD, OUT. cbn. rewrite OC. reflexivity.
        + rewrite nesting_app, nesting_app, (depth_after_app 0 (r ++ s) [c]), RD, ND. change (Nat.min 2 1) with 1. rewrite DEP. rewrite (dull_nesting _ _ dull_dots). lia.
      - split; cbn [sh_brace sh_generic sh_result sh_s]; try (rewrite ?DA, ?DEP; reflexivity); try (apply Forall_nil); try discriminate.
        + rewrite RD. cbn. reflexivity.
        + rewrite RS, OA, IO, OUT by exact IS. cbn. now rewrite app_nil_r.
        + exact RN. }
    destruct (N.eqb c 62) eqn:E62.
    { assert (OC : opens c = false) by exact E60. assert (CC : closes c = true) by exact E62.
      assert (OUT : outside g [c] = if g <=? 1 then [c] else []) by (cbn; rewrite OC, CC; apply app_nil_r).
      assert (DEP : depth_after g [c] = pred g) by (cbn; now rewrite OC, CC).
      assert (ND : forall k, nesting k [c] = k) by (intros k; cbn; rewrite OC, CC; lia).
      assert (CASE : g <= 2 \/ 3 <= g) by lia. destruct CASE as [G|G].
      - replace (g <=? 2) with true by (symmetry; apply Nat.leb_le; exact G).
        split; cbn [sh_brace sh_generic sh_result sh_s]; try (rewrite ?DA, ?DEP; reflexivity); try (constructor; fail); auto.
        + rewrite app_assoc, depth_after_app, RD. cbn [depth_after]. rewrite OC, CC. lia.
        + rewrite app_assoc, outside_app, RS, OA, IO, RD, OUT by exact IS. cbn [outside]. rewrite OC, CC, app_nil_r.
          replace (Nat.min 2 g) with g by lia. reflexivity.
        + rewrite app_assoc, nesting_app, RD, ND. lia.
      - replace (g <=? 2) with false by (symmetry; apply Nat.leb_gt; lia).
        split; cbn [sh_brace sh_generic sh_result sh_s]; try (rewrite ?DA, ?DEP; reflexivity); auto.
        + rewrite ID. lia.
        + intros H. lia.
        + rewrite OA, IO, OUT. replace (g <=? 1) with false by (symmetry; apply Nat.leb_gt; lia). now rewrite app_nil_r. }
    assert (OC : opens c = false) by exact E60. assert (CC : closes c = false) by exact E62.
    assert (OUT : outside g [c] = if g =? 0 then [c] else []) by (cbn; rewrite OC, CC; apply app_nil_r).
    assert (DEP : depth_after g [c] = g) by (cbn; now rewrite OC, CC).
    assert (ND : forall k, nesting k [c] = k) by (intros k; cbn; rewrite OC, CC; lia).
    assert (D1 : dull [c]) by now apply dull_one.
    destruct g as [|g]; cbn [Nat.eqb].
    { split; cbn [sh_brace sh_generic sh_result sh_s]; try (rewrite ?DA, ?DEP; reflexivity); auto.
      - rewrite depth_after_app, ID. cbn. now rewrite OC, CC.
      - rewrite outside_app, OA, IO, ID. reflexivity.
      - rewrite nesting_app, ID, ND. lia. }
    assert (OUT0 : outside (S g) [c] = []) by (rewrite OUT; reflexivity).
    destruct g as [|g]; cycle 1.
    { split; cbn [sh_brace sh_generic sh_result sh_s]; try (rewrite ?DA, ?DEP; reflexivity); auto.
      rewrite OA, IO, OUT0. now rewrite app_nil_r. }
    destruct (N.eqb c 58).
    { destruct (negb col).
      - split; cbn [sh_brace sh_generic sh_result sh_s]; try (rewrite ?DA, ?DEP; reflexivity); auto; try discriminate.
        + now apply dull_app.
        + rewrite OA, IO, OUT0. now rewrite app_nil_r.
      - split; cbn [sh_brace sh_generic sh_result sh_s]; try (rewrite ?DA, ?DEP; reflexivity); auto; try (apply Forall_nil).
        rewrite OA, IO, OUT0. now rewrite app_nil_r. }
    destruct (N.eqb c 95 || alphanumeric c).
    { split; cbn [sh_brace sh_generic sh_result sh_s]; try (rewrite ?DA, ?DEP; reflexivity); auto; try discriminate.
      - now apply dull_app.
      - rewrite OA, IO, OUT0. now rewrite app_nil_r. }
    split; cbn [sh_brace sh_generic sh_result sh_s]; try (rewrite ?DA, ?DEP; reflexivity); auto; try (constructor; fail).
    - rewrite app_assoc, depth_after_app, RD. now apply dull_depth.
    - rewrite app_assoc, outside_app, RS, OA, IO, OUT0, RD by exact IS. f_equal. apply dull_outside; [exact D1|]. lia.
    - rewrite app_assoc, nesting_app, RD, ND. lia.
  Qed.

  Lemma inv_all t : Forall (fun c => is_brace c = false) t -> inv t (fold_left step t (mkShort 0 false 0 [] [])).
  Proof.
    intros F. assert (G : forall u st, inv u st -> inv (u ++ t) (fold_left step t st)).
    { induction F as [|c t B F IH]; intros u st I; [now rewrite app_nil_r|]. cbn [fold_left].
      replace (u ++ c :: t) with ((u ++ [c]) ++ t) by (rewrite <- app_assoc; reflexivity).
      apply IH. now apply inv_step. }
    apply (G [] _). split; cbn; auto. constructor.
  Qed.

  Lemma short_parts t : Forall (fun c => is_brace c = false) t ->
    outside 0 (short t) = outside 0 t /\ nesting 0 (short t) <= 2.
  Proof.
    intros F. destruct (inv_all t F) as [IB IG ID IS I0 IO IN]. unfold short_name.
    destruct (fold_left step t (mkShort 0 false 0 [] [])) as [g col br r s]. cbn [sh_brace sh_generic sh_result sh_s] in *.
    rewrite outside_app, nesting_app, ID, IO. split.
    - destruct g as [|g]; [rewrite I0 by reflexivity; apply app_nil_r|].
      rewrite (dull_outside _ s) by (auto; lia). apply app_nil_r.
    - rewrite (dull_nesting _ s) by exact IS. lia.
  Qed.

  (** Arguments. *)
  Lemma special_split c : special c = false ->
    N.eqb c 123 = false /\ N.eqb c 125 = false /\ N.eqb c 60 = false /\ N.eqb c 62 = false /\ N.eqb c 58 = false.
  Proof.
    unfold special, is_brace, opens, closes. rewrite !orb_false_iff. tauto.
  Qed.
  Lemma word_read w : word alphanumeric w -> forall r s,
    fold_left step w (mkShort 1 false 0 r s) = mkShort 1 false 0 r (s ++ w).
  Proof.
    induction 1 as [|c w [SP W] F IH]; intros r s; [cbn; now rewrite app_nil_r|].
    apply special_split in SP. destruct SP as (E1 & E2 & E3 & E4 & E5).
    cbn [fold_left]. unfold short_step at 2. rewrite E1, E2, E3, E4, E5, W. cbn [Nat.ltb Nat.leb Nat.eqb].
    rewrite IH, <- app_assoc. reflexivity.
  Qed.
  Lemma path_read p : path_ok alphanumeric p -> forall r,
    fold_left step (path_text p) (mkShort 1 false 0 r []) = mkShort 1 false 0 r (snd p).
  Proof.
    destruct p as [ns w]. intros [F W] r. cbn [fst snd] in *. unfold path_text. cbn [fst snd].
    induction F as [|n ns N F IH]; [cbn [flat_map app]; now rewrite word_read|].
    cbn [flat_map]. rewrite <- !app_assoc, fold_left_app, word_read by exact N. cbn [app txt]. exact IH.
  Qed.
  Lemma skip_read t : Forall (fun c => is_brace c = false) t -> forall k r, bracketed k t ->
    fold_left step t (mkShort (2 + k) false 0 r []) = mkShort 2 false 0 r [].
  Proof.
    induction 1 as [|c t B F IH]; intros k r BR; cbn [bracketed fold_left] in *; [now subst k|].
    apply brace_split in B. destruct B as [B1 B2]. unfold short_step at 2. rewrite B1, B2.
    cbn [Nat.ltb Nat.leb]. unfold opens, closes in BR. destruct (N.eqb c 60).
    - cbn [Nat.add Nat.leb Nat.eqb]. rewrite app_nil_r. specialize (IH (S k) r BR).
      destruct k; exact IH.
    - destruct (N.eqb c 62).
      + destruct BR as [K BR]. destruct k as [|k]; [lia|]. cbn [Nat.add Nat.leb pred] in *. now apply IH.
      + cbn [Nat.add Nat.leb Nat.eqb]. now apply IH.
  Qed.
  Lemma separator_read s : separator_ok alphanumeric s -> forall r w,
    fold_left step (separator_text s) (mkShort 1 false 0 r w) = mkShort 1 false 0 (r ++ w ++ separator_short s) [].
  Proof.
    destruct s as [c|t]; cbn [separator_ok separator_text separator_short].
    - intros [SP W] r w. apply special_split in SP. destruct SP as (E1 & E2 & E3 & E4 & E5).
      cbn [fold_left]. unfold short_step. rewrite E1, E2, E3, E4, E5, W. reflexivity.
    - intros [BR NB] r w. rewrite !fold_left_app.
      change (fold_left step (txt "<") (mkShort 1 false 0 r w)) with (mkShort 2 false 0 (((r ++ w) ++ [60%N]) ++ txt "...") []).
      rewrite (skip_read t NB 0) by exact BR. cbn. rewrite <- !app_assoc. reflexivity.
  Qed.
  Lemma arguments_read a : arguments_ok alphanumeric a -> forall r,
    exists s, fold_left step (arguments_text a) (mkShort 1 false 0 r []) = mkShort 1 false 0 s (snd (snd a)) /\
      s ++ snd (snd a) = r ++ arguments_short a.
  Proof.
    destruct a as [l p]. intros [F P]. cbn [fst snd] in *. unfold arguments_text, arguments_short. cbn [fst snd].
    induction F as [|[q s] l [Q S] F IH]; intros r.
    - exists r. split; [|reflexivity]. now apply path_read.
    - cbn [flat_map fst snd] in *. rewrite !fold_left_app, path_read by exact Q.
      rewrite separator_read by exact S. destruct (IH (r ++ snd q ++ separator_short s)) as (s' & E & E').
      rewrite fold_left_app in E. exists s'. split; [exact E|]. rewrite E', <- !app_assoc. reflexivity.
  Qed.
  Lemma short_arguments pre a : Forall (fun c => opens c = false /\ closes c = false /\ is_brace c = false) pre ->
    arguments_ok alphanumeric a ->
    short (pre ++ txt "<" ++ arguments_text a ++ txt ">") = pre ++ txt "<" ++ arguments_short a ++ txt ">".
  Proof.
    intros P A. unfold short_name. rewrite !fold_left_app, short_outside_only by exact P. cbn [app].
    change (fold_left step (txt "<") (mkShort 0 false 0 pre [])) with (mkShort 1 false 0 ((pre ++ []) ++ [60%N]) []).
    destruct (arguments_read a A ((pre ++ []) ++ [60%N])) as (s & E & E'). rewrite E. cbn.
    rewrite app_nil_r, app_assoc, E', <- !app_assoc. reflexivity.
  Qed.
End Short.
