(** Proofs about how types are written. *)
From Coq Require Import List NArith Bool String Lia Arith.
From Verif Require Import Base BaseProofs NamespaceModel NamespaceProofs TypeModel TypeSpec TypeProofs PrintModel NameModel RefModel RefSpec.
Import ListNotations.
Local Open Scope N_scope.

Lemma bind_is {A B} (x : option A) (f : A -> option B) z :
  bind x f = Some z -> exists y, x = Some y /\ f y = Some z.
Proof. destruct x as [y|]; cbn; [eauto|discriminate]. Qed.

Lemma count_text_is c : count_text c = number_or_unknown c.
Proof. unfold count_text, number_or_unknown, opt64_get, opt64_is_none. change opt64_none with u64_max. now destruct (c =? u64_max). Qed.
Lemma counts_text_is l : forall sep, l <> [] ->
  counts_text sep l = txt sep ++ join (txt ", ") (map number_or_unknown l).
Proof.
  induction l as [|c l IH]; intros sep NE; [congruence|].
  cbn [counts_text map join]. rewrite count_text_is.
  destruct l as [|d l]; [now rewrite app_nil_r|].
  rewrite (IH ", "%string) by discriminate. reflexivity.
Qed.
Lemma counts_dimensions x : dimensions x (counts_as_slice x) /\ counts_as_slice x <> [].
Proof.
  unfold counts_as_slice, dimensions. destruct (a_counts x) eqn:E; cbn.
  - split; [right; auto|discriminate].
  - split; [left; split; [discriminate|reflexivity]|discriminate].
Qed.
Lemma def_name_text x : text_value (def_name x) = qualified_text (d_namespace x) "<anon-typedef>" (d_name x).
Proof.
  unfold def_name, qualified_text, in_namespace. cbn [vcat text_value]. rewrite app_nil_r. now destruct (d_namespace x).
Qed.
Lemma kind_name_text k ns n : text_value (kind_name k ns n) = txt k ++ qualified_text ns "<anon>" n.
Proof.
  unfold kind_name, qualified_text, in_namespace. cbn [vcat vtxt text_value]. rewrite app_nil_r. now destruct ns.
Qed.
Lemma named_ref_text id n : text_value (named_ref id n) = txt n.
Proof. now destruct id. Qed.
Lemma bounds_text_is l u : bounds_text l u = range_suffix l u.
Proof. destruct l, u; cbn [bounds_text range_suffix bound]; rewrite ?app_nil_r; reflexivity. Qed.

Section Ref.
  Variable env : type_env.
  Variable type_id : type -> nat.
  Variable names : type -> list (option string).
  Local Notation type_ref := (type_ref env type_id names).
  Local Notation parameter_refs := (parameter_refs env).
  Local Notation ref_id := (ref_id env type_id).

  Lemma parameter_refs_cons rec first ns ty tys : parameter_refs rec first ns (ty :: tys) =
    bind (rec (from_offset env ty)) (fun v =>
    bind (parameter_refs rec false (tl ns) tys) (fun rest =>
    Some (vcat [if first then VNil else vtxt ", ";
                match hd None ns with Some n => VText (txt n ++ txt ": ") | None => VNil end; v; rest]))).
  Proof. reflexivity. Qed.

  Lemma parameters_text rec : (forall t v, rec t = Some v -> spelled env names t (text_value v)) ->
    forall tys first ns v, parameter_refs rec first ns tys = Some v ->
    exists ps, parameters_spelled env names ns tys ps /\
      text_value v = match ps with [] => [] | _ => (if first then [] else txt ", ") ++ join (txt ", ") ps end.
  Proof.
    intros R. induction tys as [|ty tys IH]; intros first ns v E.
    - injection E as <-. exists []. split; [constructor|reflexivity].
    - rewrite parameter_refs_cons in E. apply bind_is in E. destruct E as (w & EW & E). apply bind_is in E.
      destruct E as (rest & ER & E). injection E as <-. destruct (IH _ _ _ ER) as (ps & PS & TR).
      eexists. split; [constructor; [apply R; exact EW|exact PS]|].
      cbn [text_value]. rewrite TR, app_nil_r.
      replace (text_value (if first then VNil else vtxt ", ")) with (if first then [] else txt ", ") by (now destruct first).
      f_equal. rewrite app_assoc.
      replace (text_value match hd None ns with Some n => VText (txt n ++ txt ": ") | None => VNil end)
        with (match hd None ns with Some n => txt n ++ txt ": " | None => [] end) by (now destruct (hd None ns)).
      destruct ps as [|p ps]; [now rewrite app_nil_r|]. reflexivity.
  Qed.

  Lemma ref_spelled fuel : forall t v, type_ref fuel t = Some v -> spelled env names t (text_value v).
  Proof.
    induction fuel as [|fuel IH]; intros t v E; [discriminate|]. cbn [RefModel.type_ref] in E.
    destruct t as [t|]; [|injection E as <-; constructor].
    destruct (t_kind t) as [ |x|x|x|x|x|x|x|x|x|x|x] eqn:K.
    - injection E as <-. now constructor.
    - injection E as <-. now apply sp_base.
    - injection E as <-. cbn [text_value]. rewrite def_name_text. now apply sp_def.
    - injection E as <-. cbn [text_value]. rewrite kind_name_text. now apply sp_struct.
    - injection E as <-. cbn [text_value]. rewrite kind_name_text. now apply sp_union.
    - injection E as <-. cbn [text_value]. rewrite kind_name_text. now apply sp_enum.
    - apply bind_is in E. destruct E as (e & EE & E). injection E as <-. cbn [vcat text_value vtxt].
      destruct (counts_dimensions x) as [D NE]. rewrite (counts_text_is _ _ NE), app_nil_r, <- !app_assoc.
      eapply sp_array; eauto.
    - apply bind_is in E. destruct E as (ps & EP & E). apply bind_is in E. destruct E as (r & ER & E).
      injection E as <-. cbn [vcat text_value vtxt].
      destruct (parameters_text _ IH _ _ _ _ EP) as (l & PS & ->). rewrite app_nil_r.
      assert (R : return_spelled env names (from_offset env (f_return x)) (text_value r)).
      2:{ pose proof (sp_function env names t x l _ K PS R) as T. destruct l; exact T. }
      destruct (from_offset env (f_return x)) as [u|]; [|injection ER as <-; constructor].
      destruct (t_kind u) eqn:KU; try (apply bind_is in ER; destruct ER as (w & EW & ER); injection ER as <-;
        cbn [text_value vtxt]; apply rs_type; [congruence|now apply IH]).
      injection ER as <-. now constructor.
    - injection E as <-. cbn [vcat text_value]. rewrite app_nil_r.
      replace (text_value (in_namespace (us_namespace x)) ++ txt (or_else "<void>" (us_name x))) with
        (qualified_text (us_namespace x) "<void>" (us_name x)) by (unfold qualified_text, in_namespace; now destruct (us_namespace x)).
      now apply sp_unspecified.
    - apply bind_is in E. destruct E as (c & EC & E). apply bind_is in E. destruct E as (m & EM & E).
      injection E as <-. cbn [vcat text_value vtxt]. rewrite app_nil_r. eapply sp_ptr_to_member; eauto.
    - destruct (mo_name x) as [n|] eqn:N; apply bind_is in E; destruct E as (w & EW & E); injection E as <-.
      + rewrite named_ref_text. now apply (sp_named_modifier env names t x n).
      + cbn [text_value]. unfold modifier_text. apply (sp_modifier env names t x); auto.
    - apply bind_is in E. destruct E as (w & EW & E). injection E as <-. cbn [text_value]. rewrite bounds_text_is.
      apply (sp_subrange env names t x); [exact K| |].
      + intros n N. rewrite N in EW. apply bind_is in EW. destruct EW as (id & _ & EW). injection EW as <-.
        apply named_ref_text.
      + intros N. rewrite N in EW. now apply IH.
  Qed.

  (** *** Links *)

  Lemma kind_inv t k : t_kind t = k -> t = mkType (t_offset t) k.
  Proof. destruct t. cbn. congruence. Qed.
  Ltac ref K c := rewrite (kind_inv _ _ K); c.

  Lemma ref_id_target fuel : forall t i, ref_id fuel (Some t) = Some (Some i) ->
    exists u, part env t u /\ has_entry u /\ i = type_id u.
  Proof.
    induction fuel as [|fuel IH]; intros t i E; [discriminate|]. cbn [RefModel.ref_id] in E.
    assert (STEP : forall off, identity_ref t off -> ref_id fuel (from_offset env off) = Some (Some i) ->
      exists u, part env t u /\ has_entry u /\ i = type_id u).
    { intros off R EO. destruct (from_offset env off) as [v|] eqn:F; [|destruct fuel; discriminate].
      destruct (IH v i EO) as (u & P & HE & ->). exists u. split; [|auto]. eapply part_step; eauto. }
    destruct (t_kind t) as [ |x|x|x|x|x|x|x|x|x|x|x] eqn:K; try discriminate;
      try (injection E as <-; exists t; split; [constructor|]; unfold has_entry; rewrite K; auto; fail).
    - apply (STEP (a_ty x)); [ref K constructor|exact E].
    - apply (STEP (mo_ty x)); [ref K constructor|exact E].
    - apply (STEP (sr_ty x)); [ref K constructor|exact E].
  Qed.

  Definition targets (t : type) (v : value) : Prop :=
    forall i s, In (i, s) (links v) -> exists u, part env t u /\ has_entry u /\ i = type_id u.
  Lemma targets_seq t a b : targets t a -> targets t b -> targets t (VSeq a b).
  Proof. intros A B i s IN. cbn [links] in IN. apply in_app_iff in IN. destruct IN; eauto. Qed.
  Lemma targets_none t v : links v = [] -> targets t v.
  Proof. intros E i s IN. rewrite E in IN. destruct IN. Qed.
  Lemma namespace_links n : links (namespace_value n) = [].
  Proof.
    induction n as [n k|p n k IHn] using namespace_ind'; cbn [namespace_value links app].
    - now destruct k.
    - rewrite IHn. now destruct k.
  Qed.
  Lemma in_namespace_links n : links (in_namespace n) = [].
  Proof. destruct n; [apply namespace_links|reflexivity]. Qed.
  Lemma targets_step t off u v : identity_ref t off -> from_offset env off = Some u -> targets u v -> targets t v.
  Proof. intros R F T i s IN. destruct (T i s IN) as (w & P & H). exists w. split; [eapply part_step; eauto|exact H]. Qed.
  Lemma targets_own t v : has_entry t -> links v = [] -> targets t (VLink (type_id t) v).
  Proof. intros H E i s IN. cbn [links] in IN. rewrite E in IN. destruct IN as [[= <- <-]|[]]. exists t. split; [constructor|auto]. Qed.
  Lemma targets_named t off fuel id n : identity_ref t off ->
    ref_id fuel (from_offset env off) = Some id -> targets t (named_ref id n).
  Proof.
    intros R E. destruct id as [i|]; [|now apply targets_none].
    destruct (from_offset env off) as [v|] eqn:F; [|destruct fuel; discriminate].
    intros j s IN. cbn in IN. destruct IN as [[= <- <-]|[]].
    destruct (ref_id_target _ _ _ E) as (u & P & H). exists u. split; [eapply part_step; eauto|exact H].
  Qed.

  Lemma ref_targets fuel : forall t v, type_ref fuel (Some t) = Some v -> targets t v.
  Proof.
    induction fuel as [|fuel IH]; intros t v E; [discriminate|]. cbn [RefModel.type_ref] in E.
    assert (STEP : forall off w, identity_ref t off -> type_ref fuel (from_offset env off) = Some w -> targets t w).
    { intros off w R EO. destruct (from_offset env off) as [u|] eqn:F.
      - eapply targets_step; eauto.
      - destruct fuel; [discriminate|]. injection EO as <-. now apply targets_none. }
    assert (NL : forall k ns n, links (kind_name k ns n) = []).
    { intros. unfold kind_name. cbn [vcat links vtxt app]. now rewrite in_namespace_links. }
    destruct (t_kind t) as [ |x|x|x|x|x|x|x|x|x|x|x] eqn:K.
    - injection E as <-. now apply targets_none.
    - injection E as <-. apply targets_own; [unfold has_entry; now rewrite K|reflexivity].
    - injection E as <-. apply targets_own; [unfold has_entry; now rewrite K|].
      unfold def_name. cbn [vcat links app]. now rewrite in_namespace_links.
    - injection E as <-. apply targets_own; [unfold has_entry; now rewrite K|apply NL].
    - injection E as <-. apply targets_own; [unfold has_entry; now rewrite K|apply NL].
    - injection E as <-. apply targets_own; [unfold has_entry; now rewrite K|apply NL].
    - apply bind_is in E. destruct E as (e & EE & E). injection E as <-.
      repeat apply targets_seq; try (now apply targets_none).
      apply (STEP (a_ty x)); [ref K constructor|exact EE].
    - apply bind_is in E. destruct E as (ps & EP & E). apply bind_is in E. destruct E as (r & ER & E).
      injection E as <-. repeat apply targets_seq; try (now apply targets_none).
      + assert (SUB : forall off, In off (f_parameters x) -> identity_ref t off) by (intros; ref K ltac:(now constructor)).
        revert SUB EP. generalize true, (names t). revert ps. induction (f_parameters x) as [|ty tys IHp];
          intros ps first ns SUB EP.
        * injection EP as <-. now apply targets_none.
        * rewrite parameter_refs_cons in EP. apply bind_is in EP. destruct EP as (w & EW & EP).
          apply bind_is in EP. destruct EP as (rest & ERR & EP). injection EP as <-.
          repeat apply targets_seq; try (now apply targets_none).
          -- destruct first; now apply targets_none.
          -- destruct (hd None ns); now apply targets_none.
          -- apply (STEP ty); [apply SUB; now left|exact EW].
          -- apply (IHp rest false (tl ns)); [intros; apply SUB; now right|exact ERR].
      + destruct (from_offset env (f_return x)) as [u|] eqn:F; [|injection ER as <-; now apply targets_none].
        assert (D : r = VNil \/ exists w, type_ref fuel (Some u) = Some w /\ r = VSeq (vtxt " -> ") w).
        { destruct (t_kind u); [injection ER as <-; now left|..]; right;
            apply bind_is in ER; destruct ER as (w & EW & ER); injection ER as <-; eauto. }
        destruct D as [->|(w & EW & ->)]; [now apply targets_none|].
        apply targets_seq; [now apply targets_none|]. apply (STEP (f_return x)); [ref K ltac:(apply ir_return)|now rewrite F].
    - injection E as <-. apply targets_none. cbn [vcat links app]. now rewrite in_namespace_links.
    - apply bind_is in E. destruct E as (c & EC & E). apply bind_is in E. destruct E as (m & EM & E).
      injection E as <-. repeat apply targets_seq; try (now apply targets_none).
      + apply (STEP (pm_containing x)); [ref K constructor|exact EC].
      + apply (STEP (pm_ty x)); [ref K constructor|exact EM].
    - destruct (mo_name x) as [n|] eqn:N; apply bind_is in E; destruct E as (w & EW & E); injection E as <-.
      + eapply targets_named; [|exact EW]. ref K constructor.
      + apply targets_seq; [now apply targets_none|]. apply (STEP (mo_ty x)); [ref K constructor|exact EW].
    - apply bind_is in E. destruct E as (w & EW & E). injection E as <-.
      apply targets_seq; [|now apply targets_none]. destruct (sr_name x).
      + apply bind_is in EW. destruct EW as (id & EI & EW). injection EW as <-.
        eapply targets_named; [|exact EI]. ref K constructor.
      + apply (STEP (sr_ty x)); [ref K constructor|exact EW].
  Qed.

  (** *** Termination *)

  Lemma ref_id_some n : forall t fuel, bounded n env t -> (n < fuel)%nat -> exists i, ref_id fuel (Some t) = Some i.
  Proof.
    induction n as [|n IH]; intros t fuel B L; [destruct B|]. destruct fuel as [|fuel]; [lia|].
    cbn [RefModel.ref_id]. cbn [bounded] in B.
    assert (STEP : forall off, identity_ref t off -> exists i, ref_id fuel (from_offset env off) = Some i).
    { intros off R. destruct (from_offset env off) as [u|] eqn:F; [apply IH; [eauto|lia]|].
      destruct fuel; [lia|]. exists None. reflexivity. }
    destruct (t_kind t) as [ |x|x|x|x|x|x|x|x|x|x|x] eqn:K; eauto; apply STEP; ref K constructor.
  Qed.

  Lemma ref_some n : forall t fuel, bounded n env t -> (n < fuel)%nat -> exists v, type_ref fuel (Some t) = Some v.
  Proof.
    induction n as [|n IH]; intros t fuel B L; [destruct B|]. destruct fuel as [|fuel]; [lia|].
    cbn [RefModel.type_ref]. cbn [bounded] in B.
    assert (STEP : forall off, identity_ref t off -> exists v, type_ref fuel (from_offset env off) = Some v).
    { intros off R. destruct (from_offset env off) as [u|] eqn:F; [apply IH; [eauto|lia]|].
      destruct fuel; [lia|]. eexists. reflexivity. }
    assert (ID : forall off, identity_ref t off -> exists i, ref_id fuel (from_offset env off) = Some i).
    { intros off R. destruct (from_offset env off) as [u|] eqn:F; [apply (ref_id_some n); [eauto|lia]|].
      destruct fuel; [lia|]. exists None. reflexivity. }
    destruct (t_kind t) as [ |x|x|x|x|x|x|x|x|x|x|x] eqn:K; eauto.
    - destruct (STEP (a_ty x)) as (v & ->); [ref K constructor|]. cbn [bind]. eauto.
    - assert (P : exists v, parameter_refs (type_ref fuel) true (names t) (f_parameters x) = Some v).
      { assert (SUB : forall off, In off (f_parameters x) -> exists v, type_ref fuel (from_offset env off) = Some v)
          by (intros; apply STEP; ref K ltac:(now apply ir_param)).
        revert SUB. generalize true, (names t). induction (f_parameters x) as [|ty tys IHp]; intros first ns SUB.
        - exists VNil. reflexivity.
        - rewrite parameter_refs_cons. destruct (SUB ty (or_introl eq_refl)) as (v & ->). cbn [bind].
          destruct (IHp false (tl ns)) as (w & ->); [intros; apply SUB; now right|]. cbn [bind]. eauto. }
      destruct P as (v & ->). cbn [bind].
      assert (R : exists r, match from_offset env (f_return x) with
          | Some r => match t_kind r with TVoid => Some VNil
              | _ => bind (type_ref fuel (Some r)) (fun v => Some (VSeq (vtxt " -> ") v)) end
          | None => Some VNil end = Some r).
      { destruct (STEP (f_return x)) as (w & W); [ref K ltac:(apply ir_return)|].
        destruct (from_offset env (f_return x)) as [u|]; [|eauto]. rewrite W. destruct (t_kind u); cbn [bind]; eauto. }
      destruct R as (r & ->). cbn [bind]. eauto.
    - destruct (STEP (pm_containing x)) as (v & ->); [ref K constructor|].
      destruct (STEP (pm_ty x)) as (w & ->); [ref K constructor|]. cbn [bind]. eauto.
    - destruct (mo_name x).
      + destruct (ID (mo_ty x)) as (i & ->); [ref K constructor|]. cbn [bind]. eauto.
      + destruct (STEP (mo_ty x)) as (i & ->); [ref K constructor|]. cbn [bind]. eauto.
    - destruct (sr_name x).
      + destruct (ID (sr_ty x)) as (i & ->); [ref K constructor|]. cbn [bind]. eauto.
      + destruct (STEP (sr_ty x)) as (i & ->); [ref K constructor|]. cbn [bind]. eauto.
  Qed.
End Ref.
