(** Proofs about what is printed for a type, and when. *)
From Coq Require Import List Arith NArith ZArith Bool String Lia Permutation.
From Verif Require Import Base BaseProofs NamespaceModel TypeModel TypeSpec LayoutModel LayoutProofs
  FileModel DieModel OptionsModel FilterModel FilterSpec FilterProofs LayoutSpec DiffModel DiffSpec PrintModel PrintSpec
  NameModel RefModel ItemModel ItemSpec ItemProofs.
Import ListNotations.
Local Open Scope N_scope.

(** ** Lines *)

Lemma format_bits n : bits n (format_bit n).
Proof.
  exists (n / 8), (n mod 8). split; [apply N.div_mod; discriminate|]. split; [apply N.mod_lt; discriminate|].
  unfold format_bit. destruct (n mod 8) eqn:E; reflexivity.
Qed.
Lemma lay_text_place l : place l (lay_text l).
Proof.
  unfold place, lay_text. eexists _, _. split; [apply format_bits|]. split; [|reflexivity].
  unfold opt64_get, opt64_is_none. destruct (_ =? _); apply format_bits.
Qed.
Lemma text_value_nil v : text_value v = [] -> forall l d i, lines d i (PLine l v) = [].
Proof. intros E l d i. cbn [lines]. now rewrite E. Qed.
Lemma line_app a b c v : a ++ c :: b = text_value v -> forall d i, lines d i (PLine [] v) = [Line i (text_value v)].
Proof. intros E d i. cbn [lines]. rewrite <- E. now destruct a. Qed.
Lemma line_cons c b v : c :: b = text_value v -> forall d i, lines d i (PLine [] v) = [Line i (text_value v)].
Proof. apply (line_app []). Qed.

Lemma member_line vw m d i :
  lines d i (PLine [] (member_value vw m)) = [Line i (text_value (member_value vw m))].
Proof.
  cbn [lines].
  destruct (text_value (member_value vw m)) eqn:E; [|reflexivity].
  exfalso. unfold member_value in E. cbn in E. apply app_eq_nil in E. destruct E as [E _].
  apply app_eq_nil in E. destruct E as [_ E]. discriminate.
Qed.
Lemma place_line l t x d i v : text_value v = (lay_text l ++ txt x) ++ t ->
  lines d i (PLine [] v) = [Line i (text_value v)].
Proof.
  intros E. cbn [lines]. destruct (text_value v) eqn:F; [|reflexivity]. exfalso.
  symmetry in E. apply app_eq_nil in E. destruct E as [E _]. apply app_eq_nil in E. destruct E as [E _].
  unfold lay_text in E. apply app_eq_nil in E. destruct E as [_ E]. discriminate.
Qed.
Lemma variant_line v d i :
  lines d i (PLine [] (variant_value v)) = [Line i (text_value (variant_value v))].
Proof.
  cbn [lines]. destruct (text_value (variant_value v)) eqn:E; [|reflexivity]. exfalso.
  cbn [variant_value text_value] in E. apply app_eq_nil in E. destruct E as [_ E].
  destruct (v_discr_value v); discriminate.
Qed.

(** ** Members *)

Lemma all_printed_some {A} (pr : A -> option pdoc) l : forall p, all_printed pr l = Some p ->
  forall x, In x l -> exists q, pr x = Some q.
Proof.
  induction l as [|a l IH]; cbn [all_printed]; intros p E x IN; [destruct IN|].
  apply bind_some in E. destruct E as (d & ED & E). apply bind_some in E. destruct E as (r & ER & _).
  destruct IN as [->|IN]; eauto.
Qed.
Lemma all_printed_ex {A} (pr : A -> option pdoc) l :
  (forall x, In x l -> exists q, pr x = Some q) -> exists p, all_printed pr l = Some p.
Proof.
  induction l as [|a l IH]; cbn [all_printed]; intros H; [eauto|].
  destruct (H a (or_introl eq_refl)) as (q & ->). destruct IH as (p & ->); [intros; apply H; now right|].
  cbn [bind]. eauto.
Qed.
Lemma all_printed_mono {A} (pr pr' : A -> option pdoc) l : forall p,
  (forall x q, In x l -> pr x = Some q -> pr' x = Some q) ->
  all_printed pr l = Some p -> all_printed pr' l = Some p.
Proof.
  induction l as [|a l IH]; cbn [all_printed]; intros p H E; [exact E|].
  apply bind_some in E. destruct E as (d & ED & E). apply bind_some in E. destruct E as (r & ER & [= <-]).
  rewrite (H a d (or_introl eq_refl) ED), (IH r); [reflexivity| |exact ER]. intros; apply H; [now right|assumption].
Qed.

Lemma shown vw f :
  (forall l p, print_layout f vw l = Some p -> forall d i, item_shown vw i l (lines d i p)) /\
  (forall t p, print_members f vw t = Some p -> forall d i, members_shown vw i t (lines d i p)).
Proof.
  induction f as [|f [IHL IHM]]; [split; discriminate|].
  assert (IS : forall ls p, all_printed (print_layout f vw) ls = Some p -> forall d i, items_shown vw i ls (lines d i p)).
  { induction ls as [|l ls IH]; cbn [all_printed]; intros p E d i.
    - injection E as <-. constructor.
    - apply bind_some in E. destruct E as (q & EQ & E). apply bind_some in E. destruct E as (r & ER & [= <-]).
      cbn [lines]. constructor; auto. }
  assert (MS : forall m p, print_member (print_members f vw) vw m = Some p ->
    forall d i, member_shown vw i m (lines d i p)).
  { intros m p E d i. unfold print_member in E. apply bind_some in E. destruct E as (q & EQ & [= <-]).
    cbn [lines]. fold (lines d i (PLine [] (member_value vw m))). rewrite member_line.
    change ([Line i (text_value (member_value vw m))] ++ lines d (S i) q) with
      (Line i (text_value (member_value vw m)) :: lines d (S i) q).
    unfold member_value. cbn [vcat fold_right text_value]. rewrite app_nil_r, <- !app_assoc.
    replace (text_value (vw_ref_at vw (m_ty m))) with (written_type vw (m_ty m)) by reflexivity.
    constructor.
    - apply format_bits.
    - intros n ->. apply format_bits.
    - now intros ->.
    - intros H. apply member_is_inline_iff in H. unfold inline_type in EQ. rewrite H in EQ. auto.
    - intros H. unfold inline_type in EQ. destruct (member_is_inline (vw_hash vw) m) eqn:IN.
      + exfalso. apply H. now apply member_is_inline_iff.
      + apply IHM with (d := d) (i := S i) in EQ. now inversion EQ. }
  split.
  - intros l p E d i. rewrite print_layout_S in E. destruct (l_item l) as [|m|v|x] eqn:IT.
    + injection E as <-. rewrite (place_line l [] "<padding>") by (cbn [padding_value text_value]; now rewrite app_nil_r).
      cbn [padding_value text_value]. apply it_padding; [exact IT|apply lay_text_place].
    + eapply it_member; eauto.
    + apply bind_some in E. destruct E as (q & EQ & [= <-]).
      cbn [lines]. fold (lines d i (PLine [] (variant_part_value l))).
      rewrite (place_line l [] "<variant part>") by (cbn [variant_part_value text_value]; now rewrite app_nil_r).
      cbn [variant_part_value text_value app]. eapply it_part; [exact IT|apply lay_text_place|].
      clear IT. generalize dependent q. induction (vp_variants v) as [|w ws IH]; cbn [all_printed]; intros q E.
      * injection E as <-. constructor.
      * apply bind_some in E. destruct E as (a & EA & E). apply bind_some in E. destruct E as (r & ER & [= <-]).
        unfold print_variant in EA. apply bind_some in EA. destruct EA as (b & EB & [= <-]).
        cbn [lines]. fold (lines d (S i) (PLine [] (variant_value w))). rewrite variant_line, <- app_assoc.
        cbn [app variant_value text_value]. constructor; [|auto].
        apply IS. revert EB. unfold opt64_get, opt64_is_none. now destruct (_ =? _).
    + injection E as <-.
      rewrite (place_line l (text_value (vw_ref_at vw (i_ty x))) "<inherit>: ") by
        (unfold inherit_value; cbn [vcat fold_right text_value]; now rewrite app_nil_r).
      unfold inherit_value. cbn [vcat fold_right text_value]. rewrite app_nil_r, <- app_assoc.
      apply it_inherit; [exact IT|apply lay_text_place].
  - intros t p E d i. rewrite print_members_S in E. destruct t as [t|]; [|injection E as <-; constructor].
    destruct (t_kind t) as [ | | |s|u| | | | | | | ] eqn:K;
      try (injection E as <-; apply ms_other; intros ? X; rewrite K in X; discriminate).
    + eapply ms_struct; [exact K|]. auto.
    + eapply ms_union; [exact K|]. clear K. revert p E. induction (u_members u) as [|m ms IH]; cbn [all_printed]; intros p E.
      * injection E as <-. constructor.
      * apply bind_some in E. destruct E as (a & EA & E). apply bind_some in E. destruct E as (r & ER & [= <-]).
        cbn [lines]. constructor; auto.
Qed.

(** ** Types *)

Lemma value_line label v d i : label <> ""%string ->
  lines d i (PLine (txt label) v) = labelled_line i label (text_value v).
Proof.
  intros NE. unfold labelled_line. cbn [lines]. destruct (text_value v); [reflexivity|].
  unfold labelled. destruct (txt label) eqn:E; [|reflexivity]. exfalso. apply NE. destruct label; [reflexivity|discriminate].
Qed.
Lemma field_line label t d i : label <> ""%string -> lines d i (field label t) = labelled_line i label t.
Proof.
  exact (value_line label (VText t) d i).
Qed.
Lemma section_under label b d i : label <> ""%string ->
  lines d i (PSection false (txt label) b) = under i label (lines d (S i) b).
Proof.
  intros NE. cbn [lines]. unfold under. destruct (lines d (S i) b); [reflexivity|].
  unfold labelled. destruct (txt label) eqn:E; [|reflexivity]. exfalso. apply NE. destruct label; [reflexivity|discriminate].
Qed.
Lemma source_line o vw dir t d : lines d 1 (source_field o vw dir t) = source_shown o vw dir t.
Proof.
  unfold source_field, source_shown. destruct (p_source _); [|reflexivity]. now apply field_line.
Qed.
Lemma all_lines {A} (v : A -> value) l d i : forall p,
  all_printed (fun x => Some (PLine [] (v x))) l = Some p ->
  lines d i p = flat_map (fun x => match text_value (v x) with [] => [] | t => [Line i t] end) l.
Proof.
  induction l as [|a l IH]; cbn [all_printed bind]; intros p E; [now injection E as <-|].
  apply bind_some in E. destruct E as (r & ER & [= <-]). cbn [lines flat_map]. rewrite <- (IH r ER).
  now destruct (text_value (v a)).
Qed.
Lemma inherits_lines vw l p d : print_inherits vw l = Some p -> lines d 1 p = bases_shown vw l.
Proof.
  destruct l as [|b [|b' l]]; cbn [print_inherits]; intros E.
  - now injection E as <-.
  - injection E as <-. now apply value_line.
  - apply bind_some in E. destruct E as (q & EQ & [= <-]). rewrite section_under by discriminate.
    rewrite (all_lines _ _ d 2 _ EQ). reflexivity.
Qed.
Lemma sdec_text z : sdec z = (if (z <? 0)%Z then txt "-" else []) ++ dec (Z.abs_N z).
Proof.
  unfold sdec. destruct (z <? 0)%Z eqn:E; cbn [app].
  - apply Z.ltb_lt in E. replace (Z.to_N (- z)) with (Z.abs_N z) by lia. reflexivity.
  - apply Z.ltb_ge in E. replace (Z.to_N z) with (Z.abs_N z) by lia. reflexivity.
Qed.
Lemma enumerator_lines e : enumerator_text e = enumerator_shown e.
Proof.
  unfold enumerator_text, enumerator_shown, name_or, or_else.
  destruct (en_value e); [reflexivity| |reflexivity]. now rewrite sdec_text, <- !app_assoc.
Qed.

Lemma under_members f vw t p d : print_members f vw t = Some p ->
  exists ls, members_shown vw 2 t ls /\ lines d 1 (PSection false (txt "members") p) = under 1 "members" ls.
Proof.
  intros E. exists (lines d 2 p). split; [now apply (shown vw f)|]. now apply section_under.
Qed.

Lemma pseq_lines l d i : lines d i (pseq l) = flat_map (lines d i) l.
Proof. induction l as [|x l IH]; [reflexivity|]. cbn [pseq fold_right lines flat_map]. now rewrite <- IH. Qed.

Lemma some_eq {A} (a b : A) : Some a = Some b -> a = b.
Proof. congruence. Qed.

Lemma path_text ns name rest :
  text_value (vcat (in_namespace ns :: VName (txt (or_else "<anon>" name)) :: rest)) =
  path_and_name ns name ++ text_value (vcat rest).
Proof.
  unfold path_and_name, in_namespace. cbn [vcat fold_right text_value]. rewrite <- app_assoc. now destruct ns.
Qed.
Lemma kind_line kind ns name d : kind <> ""%string ->
  lines d 0 (PLine [] (kind_name kind ns name)) = [Line 0 (txt kind ++ path_and_name ns name)].
Proof.
  intros NE. cbn [lines].
  replace (text_value (kind_name kind ns name)) with (txt kind ++ path_and_name ns name).
  - destruct kind; [congruence|reflexivity].
  - unfold kind_name. change (vcat (vtxt kind :: ?l)) with (VSeq (vtxt kind) (vcat l)). cbn [text_value vtxt].
    now rewrite path_text, app_nil_r.
Qed.

Theorem type_lines o fuel vw dir t p d : print_type o fuel vw dir t = Some p ->
  type_shown o vw dir t (lines d 0 p).
Proof.
  unfold print_type. intros E. apply bind_some in E. destruct E as (h & EH & E).
  apply bind_some in E. destruct E as (b & EB & [= <-]).
  change (lines d 0 (PSeq (PId (vw_id vw t) (PLine [] h) b) PBreak)) with
    ((lines d 0 (PLine [] h) ++ lines d 1 b) ++ [Blank]).
  unfold header_value in EH. unfold print_type_body in EB.
  destruct (t_kind t) as [ |x|x|x|x|x| | | | | | ] eqn:K; try discriminate; apply some_eq in EH; rewrite <- EH; clear EH h.
  - apply some_eq in EB. rewrite <- EB, pseq_lines. cbn [flat_map]. rewrite !field_line, app_nil_r by discriminate.
    change (lines d 0 (PLine [] (VText (txt "base " ++ txt (or_else "<anon>" (b_name x)))))) with
      [Line 0 (txt "base " ++ txt (or_else "<anon>" (b_name x)))].
    rewrite <- !app_assoc. pose proof (ts_base o vw dir t x K) as T. unfold encoding_text, endianity_text.
    destruct (vw_encoding vw t), (vw_endianity vw t); exact T.
  - apply bind_some in EB. destruct EB as (m & EM & EB). apply some_eq in EB. rewrite <- EB. rewrite pseq_lines. cbn [flat_map].
    rewrite source_line, field_line, app_nil_r by discriminate.
    change (lines d 0 (PLine [] (vcat [vtxt "type "; def_name x; vtxt " = "; vw_ref_at vw (d_ty x)]))) with
      [Line 0 (text_value (vcat [vtxt "type "; def_name x; vtxt " = "; vw_ref_at vw (d_ty x)]))].
    assert (H : exists ls, lines d 1 m = under 1 "members" ls /\
      (forall u, vw_find vw (d_ty x) = Some u -> anonymous u -> members_shown vw 2 (Some u) ls) /\
      (~ (exists u, vw_find vw (d_ty x) = Some u /\ anonymous u) -> ls = [])).
    { unfold defined_type in EM. destruct (vw_find vw (d_ty x)) as [u|] eqn:F; [destruct (is_anon u) eqn:A|].
      - apply bind_some in EM. destruct EM as (q & EQ & [= <-]).
        destruct (under_members _ _ _ _ d EQ) as (ls & SH & ->). exists ls. split; [reflexivity|]. split.
        + intros u' [= <-] _. exact SH.
        + intros N. exfalso. apply N. exists u. split; [reflexivity|]. now apply is_anon_iff.
      - injection EM as <-. exists []. split; [reflexivity|]. split; [|reflexivity].
        intros u' [= <-] AN. exfalso. apply is_anon_iff in AN. congruence.
      - injection EM as <-. exists []. split; [reflexivity|]. split; [discriminate|reflexivity]. }
    destruct H as (ls & -> & H1 & H2). pose proof (ts_def o vw dir t x ls K H1 H2) as T.
    unfold def_name, in_namespace, vtxt. cbn [vcat fold_right text_value]. rewrite !app_nil_r, <- !app_assoc.
    destruct (d_namespace x); exact T.
  - apply bind_some in EB. destruct EB as (i & EI & EB). apply bind_some in EB. destruct EB as (m & EM & EB). apply some_eq in EB. rewrite <- EB.
    apply bind_some in EM. destruct EM as (q & EQ & [= <-]).
    destruct (under_members _ _ _ _ d EQ) as (ls & SH & EL).
    rewrite pseq_lines. cbn [flat_map]. rewrite source_line, !field_line, app_nil_r by discriminate.
    rewrite EL, (inherits_lines _ _ _ _ EI). pose proof (ts_struct o vw dir t x ls K SH) as T.
    rewrite <- !app_assoc, kind_line by discriminate. exact T.
  - apply bind_some in EB. destruct EB as (m & EM & EB). apply some_eq in EB. rewrite <- EB.
    apply bind_some in EM. destruct EM as (q & EQ & [= <-]).
    destruct (under_members _ _ _ _ d EQ) as (ls & SH & EL).
    rewrite pseq_lines. cbn [flat_map]. rewrite source_line, !field_line, app_nil_r by discriminate.
    rewrite EL. pose proof (ts_union o vw dir t x ls K SH) as T.
    rewrite <- !app_assoc, kind_line by discriminate. exact T.
  - apply bind_some in EB. destruct EB as (m & EM & EB). apply some_eq in EB. rewrite <- EB.
    rewrite pseq_lines. cbn [flat_map]. rewrite source_line, !field_line, section_under, app_nil_r by discriminate.
    rewrite (all_lines _ _ d 2 _ EM). pose proof (ts_enum o vw dir t x K) as T.
    rewrite <- !app_assoc, kind_line by discriminate.
    replace (flat_map (fun x0 : enumerator => match text_value (VText (enumerator_text x0)) with [] => [] | t0 => [Line 2 t0] end)
      (vw_enumerators vw t)) with
      (flat_map (fun e => match enumerator_shown e with [] => [] | s => [Line 2 s] end) (vw_enumerators vw t)).
    + exact T.
    + apply flat_map_ext. intros e. cbn [text_value]. now rewrite enumerator_lines.
Qed.

(** ** Nesting *)

Lemma print_mono vw f :
  (forall l p, print_layout f vw l = Some p -> print_layout (S f) vw l = Some p) /\
  (forall t p, print_members f vw t = Some p -> print_members (S f) vw t = Some p).
Proof.
  induction f as [|f [IHL IHM]]; [split; discriminate|].
  assert (PM : forall m p, print_member (print_members f vw) vw m = Some p ->
    print_member (print_members (S f) vw) vw m = Some p).
  { intros m p E. unfold print_member in *. apply bind_some in E. destruct E as (q & EQ & E).
    apply IHM in EQ. now rewrite EQ. }
  split.
  - intros l p E. rewrite print_layout_S in E. rewrite print_layout_S. destruct (l_item l); auto.
    apply bind_some in E. destruct E as (q & EQ & E).
    apply all_printed_mono with (pr' := print_variant (print_layout (S f) vw) vw (l_offset l) (opt64_get (l_size l))) in EQ.
    + now rewrite EQ.
    + intros x y _ EX. unfold print_variant in *. apply bind_some in EX. destruct EX as (z & EZ & EX).
      apply all_printed_mono with (pr' := print_layout (S f) vw) in EZ; [now rewrite EZ|auto].
  - intros t p E. rewrite print_members_S in E. rewrite print_members_S. destruct t as [t|]; auto.
    destruct (t_kind t) as [ | | |s|u| | | | | | | ]; auto.
    + apply all_printed_mono with (pr := print_layout f vw); auto.
    + apply all_printed_mono with (pr := print_member (print_members f vw) vw); auto.
Qed.
Lemma print_members_le vw t p f g : (f <= g)%nat ->
  print_members f vw t = Some p -> print_members g vw t = Some p.
Proof. induction 1; auto. intros E. apply print_mono. auto. Qed.
Lemma print_layout_le vw t p f g : (f <= g)%nat ->
  print_layout f vw t = Some p -> print_layout g vw t = Some p.
Proof. induction 1; auto. intros E. apply print_mono. auto. Qed.

Lemma common_bound {A} (P : A -> nat -> Prop) l :
  (forall x n m, (n <= m)%nat -> P x n -> P x m) ->
  (forall x, In x l -> exists n, P x n) -> exists n, forall x, In x l -> P x n.
Proof.
  intros M. induction l as [|a l IH]; intros H; [exists O; intros x []|].
  destruct (H a (or_introl eq_refl)) as (n & PN). destruct IH as (m & PM); [intros; apply H; now right|].
  exists (Nat.max n m). intros x [<-|IN]; [apply (M _ n); [lia|exact PN]|apply (M _ m); [lia|auto]].
Qed.

Definition prints_at vw (m : member) (n : nat) : Prop := exists p, print_members n vw (inline_type vw m) = Some p.
Lemma prints_at_le vw m n k : (n <= k)%nat -> prints_at vw m n -> prints_at vw m k.
Proof. intros L (p & E). exists p. now apply (print_members_le vw _ p n). Qed.

Lemma member_prints vw m n : prints_at vw m n -> exists p, print_member (print_members n vw) vw m = Some p.
Proof. intros (p & E). unfold print_member. rewrite E. cbn [bind]. eauto. Qed.

Definition listed_members (t : type) : list member :=
  match t_kind t with
  | TStruct s => s_members s ++ flat_map (fun p => flat_map v_members (vp_variants p)) (s_variant_parts s)
  | TUnion u => u_members u
  | _ => []
  end.
Lemma listed_iff t m : In m (listed_members t) <-> listed_member t m.
Proof.
  unfold listed_members. split.
  - destruct (t_kind t) as [ | | |s|u| | | | | | | ] eqn:K; try (intros []; fail).
    + rewrite in_app_iff, in_flat_map. intros [IN|(p & IP & IN)]; [now apply (lm_struct t s)|].
      apply in_flat_map in IN. destruct IN as (v & IV & IN). now apply (lm_variant t s p v).
    + now apply (lm_union t u).
  - intros [s x K IN|s p v x K IP IV IN|u x K IN]; rewrite K; auto; apply in_or_app; [now left|right].
    apply in_flat_map. exists p. split; [exact IP|]. apply in_flat_map. eauto.
Qed.

Lemma nests_prints vw t : nests vw t -> exists n p, print_members n vw (Some t) = Some p.
Proof.
  induction 1 as [t H IH].
  destruct (common_bound (prints_at vw) (listed_members t) (prints_at_le vw)) as (n & B).
  { intros m IN. apply listed_iff in IN. unfold prints_at, inline_type.
    destruct (member_is_inline (vw_hash vw) m) eqn:E; [|exists 1%nat, PNil; reflexivity].
    destruct (vw_find vw (m_ty m)) as [u|] eqn:F; [|exists 1%nat, PNil; reflexivity].
    apply member_is_inline_iff in E. exact (IH m u IN E F). }
  exists (S (S (S n))). rewrite print_members_S. unfold listed_members in B. destruct (t_kind t) eqn:K; eauto.
  - apply all_printed_ex. intros l IN. rewrite print_layout_S.
    unfold struct_layout in IN. apply layout_item_in in IN. destruct IN as [->|IN]; [eauto|].
    unfold contents in IN. rewrite !in_app_iff, !in_map_iff in IN.
    destruct IN as [(m & <- & IN)|[(i & <- & _)|(p & <- & IN)]]; [| eauto|].
    + apply member_prints. apply (prints_at_le vw m n); [lia|]. apply B, in_or_app. now left.
    + match goal with |- exists q, bind ?x _ = _ => assert (E : exists q, x = Some q) end.
      { apply all_printed_ex. intros v IV. unfold print_variant.
        match goal with |- exists q, bind ?x _ = _ => assert (E : exists q, x = Some q) end.
        - apply all_printed_ex. intros y IX. rewrite print_layout_S. unfold variant_layout in IX.
          apply layout_item_in in IX. destruct IX as [->|IX]; [eauto|].
          unfold contents in IX. rewrite !in_app_iff, !in_map_iff in IX.
          destruct IX as [(m & <- & IX)|[(i & <- & [])|(q & <- & [])]].
          apply member_prints. apply B, in_or_app. right. apply in_flat_map. exists p. split; [exact IN|].
          apply in_flat_map. eauto.
        - destruct E as (q & ->). cbn [bind]. eauto. }
      destruct E as (q & ->). cbn [bind]. eauto.
  - apply all_printed_ex. intros m IN. apply member_prints. apply (prints_at_le vw m n); [lia|auto].
Qed.

Lemma layout_has bs m i p base t x : In x (contents m i p) ->
  exists l, In l (layout bs m i p base t) /\ l_item l = x.
Proof.
  intros IN. apply (Permutation_in _ (Permutation_sym (layout_items_perm bs m i p base t))) in IN.
  apply in_map_iff in IN. destruct IN as (l & <- & IN). exists l. split; [|reflexivity].
  unfold real_items in IN. now apply filter_In in IN.
Qed.

Lemma prints_nests vw n : forall t p, print_members n vw (Some t) = Some p -> nests vw t.
Proof.
  induction n as [n IH] using lt_wf_ind. intros t p E. constructor. intros m u LM IM F.
  assert (DONE : forall k q, (k < n)%nat -> print_member (print_members k vw) vw m = Some q -> nests vw u).
  { intros k q L EM. unfold print_member in EM. apply bind_some in EM. destruct EM as (d & ED & _).
    unfold inline_type in ED. apply member_is_inline_iff in IM. rewrite IM, F in ED. eauto. }
  destruct n as [|n]; [discriminate|]. rewrite print_members_S in E.
  destruct LM as [s m K IN|s pt v m K IP IV IN|x m K IN]; rewrite K in E.
  - destruct (layout_has (vw_sizes vw) (s_members s) (s_inherits s) (s_variant_parts s) 0 (option_map (fun v => mul64 v 8) (opt64_get (s_byte_size s))) (LMember m))
      as (l & IL & LI).
    { unfold contents. apply in_or_app. left. now apply in_map. }
    destruct (all_printed_some _ _ _ E l IL) as (q & EQ). destruct n as [|n]; [discriminate|].
    rewrite print_layout_S, LI in EQ. apply (DONE n q); [lia|exact EQ].
  - destruct (layout_has (vw_sizes vw) (s_members s) (s_inherits s) (s_variant_parts s) 0 (option_map (fun v => mul64 v 8) (opt64_get (s_byte_size s))) (LVariantPart pt))
      as (l & IL & LI).
    { unfold contents. apply in_or_app. right. apply in_or_app. right. now apply in_map. }
    destruct (all_printed_some _ _ _ E l IL) as (q & EQ). destruct n as [|n]; [discriminate|].
    rewrite print_layout_S, LI in EQ. apply bind_some in EQ. destruct EQ as (d & ED & _).
    destruct (all_printed_some _ _ _ ED v IV) as (q' & EQ'). unfold print_variant in EQ'.
    apply bind_some in EQ'. destruct EQ' as (d' & ED' & _). unfold variant_layout in ED'.
    match type of ED' with all_printed _ (layout ?bs ?a ?b ?c ?e ?f) = _ =>
      destruct (layout_has bs a b c e f (LMember m)) as (l' & IL' & LI') end.
    { unfold contents. apply in_or_app. left. now apply in_map. }
    destruct (all_printed_some _ _ _ ED' l' IL') as (q'' & EQ''). destruct n as [|n]; [discriminate|].
    rewrite print_layout_S, LI' in EQ''. apply (DONE n q''); [lia|exact EQ''].
  - destruct (all_printed_some _ _ _ E m IN) as (q & EQ). apply (DONE n q); [lia|exact EQ].
Qed.

Lemma inherits_some vw l : exists p, print_inherits vw l = Some p.
Proof.
  destruct l as [|a [|b l]]; cbn [print_inherits]; eauto.
  destruct (all_printed_ex (fun i => Some (PLine [] (base_class vw i))) (a :: b :: l)) as (p & ->); [eauto|].
  cbn [bind]. eauto.
Qed.

Lemma type_prints o vw dir t : printable t ->
  ((exists fuel p, print_type o fuel vw dir t = Some p) <-> forall u, shows_members vw t u -> nests vw u).
Proof.
  intros P. unfold print_type, header_value, print_type_body. split.
  - intros (f & p & E) u S. apply bind_some in E. destruct E as (h & _ & E). apply bind_some in E.
    destruct E as (b & EB & _). destruct S as [s K|x K|x u K F A]; rewrite K in EB.
    + apply bind_some in EB. destruct EB as (i & _ & EB). apply bind_some in EB. destruct EB as (m & EM & _).
      apply bind_some in EM. destruct EM as (d & ED & _). now apply prints_nests in ED.
    + apply bind_some in EB. destruct EB as (m & EM & _).
      apply bind_some in EM. destruct EM as (d & ED & _). now apply prints_nests in ED.
    + apply bind_some in EB. destruct EB as (m & EM & _). unfold defined_type in EM.
      apply is_anon_iff in A. rewrite F, A in EM.
      apply bind_some in EM. destruct EM as (d & ED & _). now apply prints_nests in ED.
  - intros H. unfold printable in P. destruct (t_kind t) as [ |x|x|x|x|x| | | | | | ] eqn:K; try destruct P; cbn [bind].
    + exists O. eauto.
    + unfold defined_type. destruct (vw_find vw (d_ty x)) as [u|] eqn:F; [destruct (is_anon u) eqn:A|].
      * apply is_anon_iff in A. destruct (nests_prints vw u (H u (sm_def vw t x u K F A))) as (n & p & E).
        exists n. rewrite E. cbn [bind]. eauto.
      * exists O. cbn [bind]. eauto.
      * exists O. cbn [bind]. eauto.
    + destruct (nests_prints vw t (H t (sm_struct vw t x K))) as (n & p & E). exists n. rewrite E.
      destruct (inherits_some vw (s_inherits x)) as (i & ->). cbn [bind]. eauto.
    + destruct (nests_prints vw t (H t (sm_union vw t x K))) as (n & p & E). exists n. rewrite E. cbn [bind]. eauto.
    + exists O. destruct (all_printed_ex (fun x => Some (PLine [] (VText (enumerator_text x)))) (vw_enumerators vw t)) as (p & ->); [eauto|].
      cbn [bind]. eauto.
Qed.
Lemma type_print_le o f g vw dir t p : (f <= g)%nat ->
  print_type o f vw dir t = Some p -> print_type o g vw dir t = Some p.
Proof.
  intros L E. unfold print_type in *. apply bind_some in E. destruct E as (h & EH & E). rewrite EH. cbn [bind].
  apply bind_some in E. destruct E as (b & EB & E).
  assert (EB' : print_type_body o g vw dir t = Some b); [|now rewrite EB'].
  unfold print_type_body in *.
  destruct (t_kind t) as [ |x|x|x|x|x| | | | | | ]; try discriminate; try exact EB.
  - apply bind_some in EB. destruct EB as (m & EM & EB).
    destruct (defined_type vw x) as [u|]; [|injection EM as <-; exact EB].
    apply bind_some in EM. destruct EM as (q & EQ & EM). rewrite (print_members_le vw _ q f g L EQ). cbn [bind].
    cbn [bind] in EM. injection EM as <-. exact EB.
  - apply bind_some in EB. destruct EB as (i & -> & EB). cbn [bind]. apply bind_some in EB. destruct EB as (m & EM & EB).
    apply bind_some in EM. destruct EM as (q & EQ & EM). rewrite (print_members_le vw _ q f g L EQ). cbn [bind].
    injection EM as <-. exact EB.
  - apply bind_some in EB. destruct EB as (m & EM & EB).
    apply bind_some in EM. destruct EM as (q & EQ & EM). rewrite (print_members_le vw _ q f g L EQ). cbn [bind].
    injection EM as <-. exact EB.
Qed.
Lemma type_unprintable o f vw dir t : ~ printable t -> print_type o f vw dir t = None.
Proof. unfold printable, print_type, header_value. destruct (t_kind t); try reflexivity; intros []; exact I. Qed.

(** ** Comparisons *)

Lemma all_rows_some {A} (pa pb : A -> option pdoc) df rows :
  (forall a, In a (lefts rows) -> exists p, pa a = Some p) ->
  (forall b, In b (rights rows) -> exists p, pb b = Some p) ->
  (forall a b, In (MBoth a b) rows -> exists e, df a b = Some e) ->
  exists e, all_rows pa pb df rows = Some e.
Proof.
  induction rows as [|r rows IH]; cbn [all_rows]; intros HA HB HD; [eauto|].
  destruct IH as (e & ->).
  - intros a IN. apply HA. cbn [lefts flat_map]. apply in_or_app. now right.
  - intros a IN. apply HB. cbn [rights flat_map]. apply in_or_app. now right.
  - intros a b IN. apply HD. now right.
  - destruct r as [a|b|a b]; cbn [row_doc].
    + destruct (HA a) as (p & ->); [now left|]. cbn [bind]. eauto.
    + destruct (HB b) as (p & ->); [now left|]. cbn [bind]. eauto.
    + destruct (HD a b) as (p & ->); [now left|]. cbn [bind]. eauto.
Qed.
Lemma compared_list_some {A} choose step dc (pa pb : A -> option pdoc) df l1 l2 k p q :
  (forall a, step a = k) -> room k l1 -> room k l2 ->
  all_printed pa l1 = Some p -> all_printed pb l2 = Some q ->
  (forall a b, In a l1 -> In b l2 -> exists e, df a b = Some e) ->
  exists e, compared_list choose step dc pa pb df l1 l2 = Some e.
Proof.
  intros C R1 R2 EP EQ H. unfold compared_list.
  destruct (edit_script_rows choose step dc l1 l2 k C R1 R2) as (rows & -> & L & R). cbn [bind].
  apply all_rows_some.
  - intros a IN. rewrite L in IN. exact (all_printed_some _ _ _ EP a IN).
  - intros a IN. rewrite R in IN. exact (all_printed_some _ _ _ EQ a IN).
  - intros a b IN. apply H.
    + rewrite <- L. apply in_flat_map. eexists. split; [exact IN|]. now left.
    + rewrite <- R. apply in_flat_map. eexists. split; [exact IN|]. now left.
Qed.

Section Defined.
  Variable choose : list N -> list N -> list (list N) -> nat -> nat.
  Variable sd : sides.
  Hypothesis SA : short_view (sd_a sd).
  Hypothesis SB : short_view (sd_b sd).

  Lemma members_defined f :
    (forall a b p q, short_lay a -> short_lay b ->
       print_layout f (sd_a sd) a = Some p -> print_layout f (sd_b sd) b = Some q ->
       exists e, diff_layout choose sd f a b = Some e) /\
    (forall a b p q, short_opt a -> short_opt b ->
       print_members f (sd_a sd) a = Some p -> print_members f (sd_b sd) b = Some q ->
       exists e, diff_members choose sd f a b = Some e).
  Proof.
    induction f as [|f [IHL IHM]]; [split; discriminate|].
    assert (DM : forall a b p q, print_member (print_members f (sd_a sd)) (sd_a sd) a = Some p ->
      print_member (print_members f (sd_b sd)) (sd_b sd) b = Some q ->
      exists e, diff_member sd (diff_members choose sd f) a b = Some e).
    { intros a b p q EP EQ. unfold print_member in *. apply bind_some in EP. destruct EP as (p' & EP & _).
      apply bind_some in EQ. destruct EQ as (q' & EQ & _).
      destruct (IHM _ _ _ _ (inline_short _ _ SA) (inline_short _ _ SB) EP EQ) as (e & E).
      unfold diff_member. rewrite E. cbn [bind]. eauto. }
    split.
    - intros a b p q SLA SLB EP EQ. rewrite diff_layout_S.
      assert (BL : exists e, block (print_layout (S f) (sd_a sd) a) (print_layout (S f) (sd_b sd) b) = Some e).
      { rewrite EP, EQ. cbn. eauto. }
      rewrite print_layout_S in EP, EQ.
      destruct (l_item a) as [|m|v|x] eqn:IA, (l_item b) as [|m'|v'|x'] eqn:IB; try exact BL; eauto.
      + unfold short_lay in SLA, SLB. rewrite IA in SLA. rewrite IB in SLB. destruct SLA as [SVA SFA]. destruct SLB as [SVB SFB].
        apply bind_some in EP. destruct EP as (p' & EP & _). apply bind_some in EQ. destruct EQ as (q' & EQ & _).
        cbn zeta. match goal with |- exists e, bind ?c _ = _ => assert (HC : exists e, c = Some e) end.
        2:{ destruct HC as (e & ->). cbn [bind]. eauto. }
        eapply compared_list_some with (k := 1); [reflexivity|now apply short_room|now apply short_room|exact EP|exact EQ|].
        intros w w' IW IW'. destruct (all_printed_some _ _ _ EP w IW) as (pw & EPW).
        destruct (all_printed_some _ _ _ EQ w' IW') as (qw & EQW).
        unfold print_variant in EPW, EQW. apply bind_some in EPW. destruct EPW as (pl & EPL & _).
        apply bind_some in EQW. destruct EQW as (ql & EQL & _).
        rewrite Forall_forall in SFA, SFB.
        match type of EPL with all_printed _ (variant_layout ?bs ?v ?o ?s) = _ =>
          destruct (variant_layout_short bs v o s (SFA w IW)) as [RA LA] end.
        match type of EQL with all_printed _ (variant_layout ?bs ?v ?o ?s) = _ =>
          destruct (variant_layout_short bs v o s (SFB w' IW')) as [RB LB] end.
        unfold diff_variant.
        match goal with |- exists e, bind ?c _ = _ => assert (HC : exists e, c = Some e) end.
        2:{ destruct HC as (e & ->). cbn [bind]. eauto. }
        eapply compared_list_some with (k := 1); [reflexivity|exact RA|exact RB|exact EPL|exact EQL|].
        intros l l' IL IL'. destruct (all_printed_some _ _ _ EPL l IL) as (pp & EPP).
        destruct (all_printed_some _ _ _ EQL l' IL') as (qq & EQQ). eauto.
    - intros a b p q SOA SOB EP EQ. rewrite diff_members_S.
      assert (BL : exists e, block (print_members (S f) (sd_a sd) a) (print_members (S f) (sd_b sd) b) = Some e).
      { rewrite EP, EQ. cbn. eauto. }
      rewrite print_members_S in EP, EQ.
      destruct a as [ta|], b as [tb|]; cbn [option_map]; try (destruct (t_kind ta); exact BL); try exact BL.
      destruct (t_kind ta) as [ | | |s|u| | | | | | | ] eqn:KA, (t_kind tb) as [ | | |s'|u'| | | | | | | ] eqn:KB; try exact BL.
      + destruct (struct_layout_short (vw_sizes (sd_a sd)) ta s KA (SOA ta eq_refl)) as [RA LA].
        destruct (struct_layout_short (vw_sizes (sd_b sd)) tb s' KB (SOB tb eq_refl)) as [RB LB].
        eapply compared_list_some with (k := 1); [reflexivity|exact RA|exact RB|exact EP|exact EQ|].
        intros l l' IL IL'. destruct (all_printed_some _ _ _ EP l IL) as (pp & EPP).
        destruct (all_printed_some _ _ _ EQ l' IL') as (qq & EQQ). eauto.
      + pose proof (SOA ta eq_refl) as HA. pose proof (SOB tb eq_refl) as HB. unfold short_type in HA, HB.
        rewrite KA in HA. rewrite KB in HB.
        eapply compared_list_some with (k := 1); [reflexivity|now apply short_room|now apply short_room|exact EP|exact EQ|].
        intros l l' IL IL'. destruct (all_printed_some _ _ _ EP l IL) as (pp & EPP).
        destruct (all_printed_some _ _ _ EQ l' IL') as (qq & EQQ). eauto.
  Qed.

  Lemma inherits_defined l1 l2 : short l1 -> short l2 -> exists e, diff_inherits choose sd l1 l2 = Some e.
  Proof.
    intros S1 S2. unfold diff_inherits. destruct (_ || _); [|eauto].
    match goal with |- exists e, bind ?c _ = _ => assert (HC : exists e, c = Some e) end.
    2:{ destruct HC as (e & ->). cbn [bind]. eauto. }
    destruct (all_printed_ex (fun i => Some (PLine [] (base_class (sd_a sd) i))) l1) as (p & EP); [eauto|].
    destruct (all_printed_ex (fun i => Some (PLine [] (base_class (sd_b sd) i))) l2) as (q & EQ); [eauto|].
    eapply compared_list_some with (k := 1); [reflexivity|now apply short_room|now apply short_room|exact EP|exact EQ|eauto].
  Qed.

  Lemma type_defined o fuel da db a b p q : (0 < fuel)%nat -> short_type a -> short_type b ->
    kind_discriminant (t_kind a) = kind_discriminant (t_kind b) ->
    print_type o fuel (sd_a sd) da a = Some p -> print_type o fuel (sd_b sd) db b = Some q ->
    exists e, diff_type choose o fuel sd da db a b = Some e.
  Proof.
    intros F STA STB KD EP EQ. unfold print_type in *.
    apply bind_some in EP. destruct EP as (ha & EHA & EP). apply bind_some in EP. destruct EP as (ba & EBA & _).
    apply bind_some in EQ. destruct EQ as (hb & EHB & EQ). apply bind_some in EQ. destruct EQ as (bb & EBB & _).
    unfold diff_type, diff_type_header. rewrite KD, N.eqb_refl, EHA, EHB. cbn [bind].
    assert (SO : forall t, short_type t -> short_opt (Some t)) by (intros t ST u [= <-]; exact ST).
    assert (H : exists e, diff_type_body choose o fuel sd da db a b = Some e).
    2:{ destruct H as (e & ->). cbn [bind]. eauto. }
    unfold print_type_body in EBA, EBB. unfold diff_type_body.
    destruct (t_kind a) as [ |x|x|x|x|x| | | | | | ] eqn:KA; try discriminate;
      destruct (t_kind b) as [ |y|y|y|y|y| | | | | | ] eqn:KB; try discriminate.
    - eauto.
    - apply bind_some in EBA. destruct EBA as (ma & EMA & _). apply bind_some in EBB. destruct EBB as (mb & EMB & _).
      assert (DS : forall vw d, short_view vw -> short_opt (defined_type vw d)).
      { intros vw d [SV _] u E. unfold defined_type in E. destruct (vw_find vw (d_ty d)) eqn:FD; [|discriminate].
        destruct (is_anon _); [|discriminate]. injection E as <-. eauto. }
      assert (PD : forall vw d m, match defined_type vw d with
          | Some u => bind (print_members fuel vw (Some u)) (fun d0 => Some (PSection false (txt "members") d0))
          | None => Some PNil end = Some m -> exists p, print_members fuel vw (defined_type vw d) = Some p).
      { intros vw d m E. destruct (defined_type vw d).
        - apply bind_some in E. destruct E as (z & -> & _). eauto.
        - destruct fuel; [lia|]. exists PNil. reflexivity. }
      apply PD in EMA. apply PD in EMB. destruct EMA as (p' & EMA). destruct EMB as (q' & EMB).
      destruct (proj2 (members_defined fuel) _ _ _ _ (DS _ x SA) (DS _ y SB) EMA EMB) as (e & ->). cbn [bind]. eauto.
    - unfold short_type in *. rewrite KA in *. rewrite KB in *.
      destruct (inherits_defined (s_inherits x) (s_inherits y)) as (i & ->); [tauto|tauto|]. cbn [bind].
      apply bind_some in EBA. destruct EBA as (ia & _ & EBA). apply bind_some in EBA. destruct EBA as (ma & EMA & _).
      apply bind_some in EMA. destruct EMA as (p' & EMA & _).
      apply bind_some in EBB. destruct EBB as (ib & _ & EBB). apply bind_some in EBB. destruct EBB as (mb & EMB & _).
      apply bind_some in EMB. destruct EMB as (q' & EMB & _).
      assert (SOA : short_opt (Some a)) by (apply SO; unfold short_type; now rewrite KA).
      assert (SOB : short_opt (Some b)) by (apply SO; unfold short_type; now rewrite KB).
      destruct (proj2 (members_defined fuel) _ _ _ _ SOA SOB EMA EMB) as (e & ->). cbn [bind]. eauto.
    - apply bind_some in EBA. destruct EBA as (ma & EMA & _).
      apply bind_some in EMA. destruct EMA as (p' & EMA & _).
      apply bind_some in EBB. destruct EBB as (mb & EMB & _).
      apply bind_some in EMB. destruct EMB as (q' & EMB & _).
      destruct (proj2 (members_defined fuel) _ _ _ _ (SO _ STA) (SO _ STB) EMA EMB) as (e & ->). cbn [bind]. eauto.
    - apply bind_some in EBA. destruct EBA as (ma & EMA & _). apply bind_some in EBB. destruct EBB as (mb & EMB & _).
      match goal with |- exists e, bind ?c _ = _ => assert (HC : exists e, c = Some e) end.
      2:{ destruct HC as (e & ->). cbn [bind]. eauto. }
      eapply compared_list_some with (k := 3); [reflexivity| | |exact EMA|exact EMB|eauto].
      + apply short_room; [lia|]. apply SA.
      + apply short_room; [lia|]. apply SB.
  Qed.
End Defined.
