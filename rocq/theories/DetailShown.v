(** Proofs about DetailModel.v, second part: what the walk finds. *)
From Coq Require Import List Arith NArith ZArith Bool String Lia.
From Verif Require Import Base BaseProofs RangeModel NamespaceModel TypeModel LocationModel LocationProofs DieModel
  DieSpec DieProofs DescribeProofs FileModel EntryModel DetailModel DetailSpec DetailProofs.
Import ListNotations.
Local Open Scope N_scope.

(** ** Calls *)

Lemma call_origin_leads sp h off r : call_origin sp h off = Some r <-> leads_to sp h off r.
Proof.
  unfold call_origin. split.
  - destruct (sp off) as [[rd d]|] eqn:S; [|discriminate].
    destruct (die_tag d) eqn:T; try discriminate.
    + change type_offset_none with u64_max. destruct (N.eqb_spec off u64_max); [discriminate|].
      destruct (of_function h off) as [f|] eqn:F; [|discriminate]. intros E. injection E as <-.
      now apply (leads_function _ _ _ rd d).
    + change type_offset_none with u64_max. destruct (N.eqb_spec off u64_max) as [->|NE].
      * intros E. injection E as <-. apply (leads_local _ _ _ rd d); auto.
      * destruct (of_variable h off) as [v|] eqn:F; intros E; injection E as <-.
        -- now apply (leads_variable _ _ _ rd d).
        -- apply (leads_local _ _ _ rd d); auto.
    + intros E. injection E as <-. now apply (leads_parameter _ _ _ rd d).
    + intros E. injection E as <-. now apply (leads_member _ _ _ rd d).
  - intros [rd d f S T NE F|rd d v S T NE F|rd d S T NE|rd d S T|rd d S T]; rewrite S, T; try reflexivity;
      change type_offset_none with u64_max.
    + rewrite (proj2 (N.eqb_neq _ _) NE), F. reflexivity.
    + rewrite (proj2 (N.eqb_neq _ _) NE), F. reflexivity.
    + destruct (N.eqb_spec off u64_max); [reflexivity|]. destruct NE as [NE|NE]; [contradiction|]. now rewrite NE.
Qed.

Lemma scan_last {B} (g : attr -> option B) l :
  last_such (fun a r => g a = Some r) l
    (scan (fun a x => match g a with Some r => Some r | None => x end) l None).
Proof.
  induction l as [|a l IH] using rev_ind; [constructor; intros a b []|].
  unfold scan in *. rewrite fold_left_app. cbn [fold_left].
  destruct (g a) as [r|] eqn:G.
  - apply last_one; [exact G|]. intros a' b' [].
  - inversion IH as [l' H E1 E2|before x after b R H E1 E2].
    + constructor. intros x b I. apply in_app_iff in I. destruct I as [I|[<-|[]]]; [now apply H|].
      rewrite G. discriminate.
    + rewrite <- app_assoc. cbn [app]. apply last_one; [exact R|].
      intros x' b' I. apply in_app_iff in I. destruct I as [I|[<-|[]]]; [now apply H|].
      rewrite G. discriminate.
Qed.

Lemma last_such_ext {A B} (R Q : A -> B -> Prop) l x :
  (forall a b, R a b <-> Q a b) -> last_such R l x -> last_such Q l x.
Proof.
  intros E H. destruct H as [l H|before a after b H1 H2].
  - constructor. intros a b I F. apply (H a b I), E, F.
  - apply last_one; [now apply E|]. intros a' b' I F. apply (H2 a' b' I), E, F.
Qed.

Lemma attr_call_origin_last sp h l : last_such (attr_leads_to sp h) l (attr_call_origin sp h l).
Proof.
  unfold attr_call_origin.
  set (g := fun a => match a with
                     | ACallOrigin (Some o) | AAbstractOrigin (Some o) => call_origin sp h o
                     | _ => None
                     end).
  rewrite (scan_ext _ (fun a x => match g a with Some r => Some r | None => x end)).
  2: { intros [] y; try reflexivity; now destruct v. }
  apply (last_such_ext (fun a r => g a = Some r)); [|apply scan_last].
  intros a r. unfold attr_leads_to. split.
  - destruct a; try discriminate; destruct v as [o|]; try discriminate; cbn [g]; intros H;
      exists o; (split; [tauto|now apply call_origin_leads]).
  - intros (o & [-> | ->] & L); cbn [g]; now apply call_origin_leads.
Qed.

Lemma given_app {A} (pick : attr -> option A) l1 l2 d : given pick (l1 ++ l2) d = given pick l2 (given pick l1 d).
Proof. unfold given. now rewrite flat_map_app, last_app. Qed.

Lemma argument_ok sp rd t off attrs c :
  parse_call_site_parameter sp rd attrs = argument_of sp rd (Die t off attrs c).
Proof.
  unfold parse_call_site_parameter, argument_of. cbn [die_attrs]. rewrite !attr_pieces_given, attr_call_parameter_given.
  unfold given_name, given_optional_type. rewrite !given_app.
  f_equal.
  - rewrite attr_name_given. unfold given_name. apply scan_given. now intros [].
  - rewrite attr_optional_type_given. unfold given_optional_type. unfold attr_optional_type.
    apply scan_given. intros [] y; try reflexivity; now destruct v.
Qed.

Lemma site_ok sp h rd gnu off attrs children :
  calls sp h rd (Die (TagCallSite gnu) off attrs children) (parse_call_site sp h rd gnu attrs children).
Proof.
  unfold parse_call_site. rewrite attr_call_kind_given, attr_return_address_given, attr_call_address_given,
    attr_pieces_given, attr_clobbered_given, attr_optional_type_given, attr_call_source_given.
  replace (call_parameters sp rd children)
    with (map (argument_of sp rd)
            (filter (fun d => match die_tag d with TagCallParameter => true | _ => false end) children)).
  - constructor. apply attr_call_origin_last.
  - unfold call_parameters. induction children as [|d l IH]; [reflexivity|]. cbn [filter flat_map].
    destruct d as [t o a c]. cbn [die_tag]. destruct t; try exact IH. cbn [map app]. rewrite IH.
    f_equal. symmetry. apply argument_ok.
Qed.

(** ** The walk *)

Definition item_call (sp : space) (h : offsets) (rd : reading) (d : die) : call_site :=
  parse_call_site sp h rd match die_tag d with TagCallSite gnu => gnu | _ => false end (die_attrs d) (die_children d).
Definition item_inlined (sp : space) (h : offsets) (rd : reading) (d : die) : inlined_function :=
  let attrs := die_attrs d in
  let inner := fold_left (fun st c => visit_details sp h rd false c st) (die_children d)
                 (abstract_details sp (attr_function_origin attrs)) in
  mkInlinedFunction (attr_function_origin attrs) (fst (inlined_extent attrs)) (snd (inlined_extent attrs))
    (attr_call_source attrs)
    (fd_parameters inner) (fd_variables inner) (fd_inlined inner) (fd_calls inner).

Section Visit.
  Variable sp : space.
  Variable h : offsets.
  Variable rd : reading.

  Definition gives (d : die) (st st' : function_details) : Prop :=
    fd_variables st' = fold_left add_variable (map (pair rd) (through_blocks is_variable d)) (fd_variables st) /\
    fd_inlined st' = fd_inlined st ++ map (item_inlined sp h rd) (through_blocks is_inlined d) /\
    fd_calls st' = fd_calls st ++ map (item_call sp h rd) (through_blocks is_call d).

  Lemma visit_all b l :
    Forall (fun d => forall b st, gives d st (visit_details sp h rd b d st)) l ->
    forall st, let st' := fold_left (fun st c => visit_details sp h rd b c st) l st in
    fd_variables st' =
      fold_left add_variable (map (pair rd) (flat_map (through_blocks is_variable) l)) (fd_variables st) /\
    fd_inlined st' = fd_inlined st ++ map (item_inlined sp h rd) (flat_map (through_blocks is_inlined) l) /\
    fd_calls st' = fd_calls st ++ map (item_call sp h rd) (flat_map (through_blocks is_call) l).
  Proof.
    induction 1 as [|d l H F IH]; intros st; cbn zeta; [cbn; now rewrite !app_nil_r|].
    cbn [fold_left flat_map]. destruct (H b st) as (A & B & C).
    destruct (IH (visit_details sp h rd b d st)) as (A' & B' & C').
    rewrite A', B', C', A, B, C, !map_app, fold_left_app, !app_assoc. repeat split; reflexivity.
  Qed.

  Lemma visit_gives d : forall b st, gives d st (visit_details sp h rd b d st).
  Proof.
    induction d as [t o a c IH] using die_ind'. intros b st.
    destruct t; try (unfold gives; cbn; rewrite ?app_nil_r; repeat split; reflexivity).
    - unfold gives. cbn. rewrite !app_nil_r. destruct b; repeat split; reflexivity.
    - cbn [visit_details]. destruct (visit_all true c IH st) as (A & B & C). repeat split; assumption.
    - unfold gives. cbn [visit_details through_blocks is_variable is_inlined is_call map fold_left app].
      destruct (inlined_extent a) as [s r] eqn:E. cbn [with_inlined fd_variables fd_inlined fd_calls].
      rewrite app_nil_r. repeat split. unfold item_inlined. cbn [die_attrs die_children]. now rewrite E.
  Qed.

  Lemma visit_list b l : forall st, let st' := fold_left (fun st c => visit_details sp h rd b c st) l st in
    fd_variables st' =
      fold_left add_variable (map (pair rd) (flat_map (through_blocks is_variable) l)) (fd_variables st) /\
    fd_inlined st' = fd_inlined st ++ map (item_inlined sp h rd) (flat_map (through_blocks is_inlined) l) /\
    fd_calls st' = fd_calls st ++ map (item_call sp h rd) (flat_map (through_blocks is_call) l).
  Proof. apply visit_all, Forall_forall. intros d _. apply visit_gives. Qed.

  Lemma visit_block_parameters d : forall st, fd_parameters (visit_details sp h rd true d st) = fd_parameters st.
  Proof.
    induction d as [t o a c IH] using die_ind'. intros st. destruct t; try reflexivity.
    - cbn [visit_details]. revert st. induction IH as [|d l H F IH]; intros st; [reflexivity|].
      cbn [fold_left]. now rewrite IH, H.
    - cbn [visit_details]. now destruct inlined_extent.
  Qed.
  Lemma visit_parameters l : forall st,
    fd_parameters (fold_left (fun st c => visit_details sp h rd false c st) l st) =
    fold_left add_parameter (map (pair rd) (filter is_parameter l)) (fd_parameters st).
  Proof.
    induction l as [|d l IH]; intros st; [reflexivity|]. cbn [fold_left]. rewrite IH.
    destruct d as [t o a c]. cbn [filter is_parameter die_tag]. destruct t; try reflexivity.
    - f_equal. cbn [visit_details]. clear. revert st. induction c as [|d l IH]; intros st; [reflexivity|].
      cbn [fold_left]. now rewrite IH, visit_block_parameters.
    - cbn [visit_details]. now destruct inlined_extent.
  Qed.
End Visit.

Lemma visit_abstract_block rd d : forall st,
  fst (visit_abstract rd true d st) = fst st /\
  snd (visit_abstract rd true d st) = fold_left add_variable (map (pair rd) (through_blocks is_variable d)) (snd st).
Proof.
  induction d as [t o a c IH] using die_ind'. intros st.
  destruct t; try (split; reflexivity). cbn [visit_abstract through_blocks is_variable].
  revert st. induction IH as [|d l H F IH]; intros st; [split; reflexivity|]. cbn [fold_left flat_map].
  rewrite map_app, fold_left_app. destruct (H st) as [A B]. destruct (IH (visit_abstract rd true d st)) as [C D].
  rewrite C, D, A, B. split; reflexivity.
Qed.
Lemma visit_abstract_list rd l : forall st,
  let st' := fold_left (fun st c => visit_abstract rd false c st) l st in
  fst st' = fold_left add_parameter (map (pair rd) (filter is_parameter l)) (fst st) /\
  snd st' = fold_left add_variable (map (pair rd) (flat_map (through_blocks is_variable) l)) (snd st).
Proof.
  induction l as [|d l IH]; intros st; cbn zeta; [split; reflexivity|]. cbn [fold_left flat_map].
  destruct (IH (visit_abstract rd false d st)) as [A B]. rewrite A, B, map_app, fold_left_app. clear.
  assert (H : snd (visit_abstract rd false d st) =
              fold_left add_variable (map (pair rd) (through_blocks is_variable d)) (snd st)).
  { destruct d as [[] o a c]; try reflexivity. apply (visit_abstract_block rd (Die TagLexicalBlock o a c) st). }
  rewrite H. split; [|reflexivity]. destruct d as [[] o a c]; try reflexivity.
  cbn [filter is_parameter die_tag]. f_equal.
  apply (visit_abstract_block rd (Die TagLexicalBlock o a c) st).
Qed.

Lemma abstract_start sp attrs :
  abstract_details sp (attr_function_origin attrs) =
  match abstract_origin sp attrs with
  | Some (rd, d) =>
      mkFunctionDetails
        (fold_left add_parameter (map (pair rd) (filter is_parameter (die_children d))) [])
        (fold_left add_variable (map (pair rd) (flat_map (through_blocks is_variable) (die_children d))) []) [] []
  | None => no_details
  end.
Proof.
  unfold abstract_details, parse_abstract_subprogram, abstract_origin, function_tree.
  rewrite attr_function_origin_given. change type_offset_none with u64_max.
  destruct (given_origin attrs) as [o|]; [|reflexivity].
  destruct (o =? u64_max); [reflexivity|]. destruct (sp o) as [[rd d]|]; [|reflexivity].
  destruct (visit_abstract_list rd (die_children d) ([], [])) as [A B].
  destruct fold_left as [ps vs] eqn:E. cbn [fst snd] in A, B. now rewrite A, B.
Qed.

Lemma in_through f d : forall x, In x (through_blocks f d) -> In x (entries d).
Proof.
  induction d as [t o a c IH] using die_ind'. intros x. cbn [through_blocks].
  destruct (f t); [intros [<-|[]]; now left|].
  destruct t; try contradiction. intros H. right. apply in_flat_map in H. destruct H as (y & I & J).
  apply in_flat_map. exists y. split; [exact I|]. rewrite Forall_forall in IH. now apply IH.
Qed.
Lemma in_children_through f d x : In x (flat_map (through_blocks f) (die_children d)) -> In x (entries d).
Proof.
  destruct d as [t o a c]. cbn [die_children]. intros H. right. apply in_flat_map in H.
  destruct H as (y & I & J). apply in_flat_map. exists y. split; [exact I|]. now apply in_through in J.
Qed.
Lemma entries_trans d : forall x y, In x (entries d) -> In y (entries x) -> In y (entries d).
Proof.
  induction d as [t o a c IH] using die_ind'. intros x y [<-|H] J; [exact J|].
  right. cbn [die_children] in *. apply in_flat_map in H. destruct H as (z & I & K). apply in_flat_map. exists z.
  split; [exact I|]. rewrite Forall_forall in IH. now apply (IH z I x).
Qed.

(** What a function has, given its entry. *)
Lemma details_ok sp h rd attrs children :
  let st := fold_left (fun st c => visit_details sp h rd false c st) children
              (abstract_details sp (attr_function_origin attrs)) in
  all_proper sp -> (forall d, In d (flat_map (through_blocks is_variable) children) -> proper_places [(rd, d)]) ->
  fd_parameters st = map parameter_of (groups [] (parameter_entries sp rd attrs children)) /\
  fd_variables st = map variable_of (groups [] (variable_entries sp rd attrs children)) /\
  fd_inlined st = map (item_inlined sp h rd) (flat_map (through_blocks is_inlined) children) /\
  fd_calls st = map (item_call sp h rd) (flat_map (through_blocks is_call) children).
Proof.
  cbn zeta. intros P Q.
  destruct (visit_list sp h rd false children (abstract_details sp (attr_function_origin attrs))) as (A & B & C).
  rewrite A, B, C, visit_parameters, abstract_start. clear A B C.
  unfold parameter_entries, variable_entries, entries_for.
  assert (OWN : proper_places (map (pair rd) (flat_map (through_blocks is_variable) children))).
  { intros e a n I. apply in_map_iff in I. destruct I as (d & <- & I). apply (Q d I). now left. }
  unfold abstract_origin. destruct (given_origin attrs) as [o|]; [destruct (o =? u64_max); [|destruct (sp o) as [[rd' d]|] eqn:S]|];
    cbn [fd_parameters fd_variables fd_inlined fd_calls no_details app].
  1, 3, 4: rewrite parameters_grouped, variables_grouped by exact OWN; repeat split; reflexivity.
  rewrite <- !fold_left_app, parameters_grouped, variables_grouped; [repeat split; reflexivity|].
  intros e a n I. apply in_app_iff in I. destruct I as [I|I]; [|now apply OWN].
  apply (P o rd' d S). apply in_map_iff in I. destruct I as (x & <- & I). apply in_map_iff. exists x.
  split; [reflexivity|]. now apply in_children_through in I.
Qed.

(** ** Inlined functions *)

Lemma given_forall {A} (P : A -> Prop) (pick : attr -> option A) l d :
  (forall a v, In a l -> pick a = Some v -> P v) -> P d -> P (given pick l d).
Proof.
  revert d. induction l as [|a l IH]; intros d H Hd; [exact Hd|]. rewrite given_cons.
  apply IH; [intros x v I; apply H; now right|]. destruct (pick a) as [v|] eqn:E; [|exact Hd].
  apply (H a v); [now left|exact E].
Qed.

Lemma extent_covers l : Forall attr_64 l -> covers l (fst (inlined_extent l)) (snd (inlined_extent l)).
Proof.
  intros F. rewrite Forall_forall in F. unfold inlined_extent.
  rewrite attr_ranges_given, attr_extent_given, attr_low_given, attr_high_pc_given.
  assert (RS : match given_ranges l with Some rs => Forall (fun p => snd p < two64) rs | None => True end).
  { unfold given_ranges. apply (given_forall (fun x => match x with Some rs => Forall (fun p => snd p < two64) rs | None => True end)); [|exact I].
    intros a v Ia E. destruct a; try discriminate. injection E as <-. specialize (F _ Ia). cbn in F.
    destruct v0; [|exact I]. rewrite Forall_forall in *. intros p Ip. now apply F. }
  assert (LOW : match given_low l with Some n => n < two64 | None => True end).
  { unfold given_low. apply (given_forall (fun x => match x with Some n => n < two64 | None => True end)); [|exact I].
    intros a v Ia E. destruct a; try discriminate. injection E as <-. specialize (F _ Ia). cbn in F. now destruct v0. }
  assert (HIGH : match given_high_pc l with Some n => n < two64 | None => True end).
  { unfold given_high_pc. apply (given_forall (fun x => match x with Some n => n < two64 | None => True end)); [|exact I].
    intros a v Ia E. destruct a; try discriminate. injection E as <-. specialize (F _ Ia). cbn in F. now destruct v0. }
  destruct (given_ranges l) as [rs|] eqn:ER; cbn [fst snd].
  - rewrite total_size_sum by exact RS. rewrite !nonempty_ranges_filter. now apply cov_ranges with rs.
  - destruct (given_extent l) as [n|] eqn:EX, (given_low l) as [low|] eqn:EL, (given_high_pc l) as [high|] eqn:EH; cbn [fst snd];
      try (now apply cov_length); try (now apply cov_only_length); try (apply cov_unknown; now auto).
    destruct (N.ltb_spec low high) as [L|L].
    + rewrite sub64_below by lia. now apply cov_up_to.
    + replace (sub64 high low) with ((high + two64 - low) mod two64); [now apply cov_backwards|].
      unfold sub64, wrap64. now rewrite (N.mod_small low) by lia.
Qed.

Lemma forall2_map {A B} (R : A -> B -> Prop) (f : A -> B) l : (forall a, In a l -> R a (f a)) -> Forall2 R l (map f l).
Proof.
  induction l as [|a l IH]; intros H; [constructor|]. cbn [map]. constructor; [apply H; now left|].
  apply IH. intros x I. apply H. now right.
Qed.

Lemma through_tag f d x : In x (through_blocks f d) -> f (die_tag x) = true.
Proof.
  revert x. induction d as [t o a c IH] using die_ind'. intros x. cbn [through_blocks].
  destruct (f t) eqn:E; [intros [<-|[]]; exact E|].
  destruct t; try contradiction. intros H. apply in_flat_map in H. destruct H as (y & I & J).
  rewrite Forall_forall in IH. now apply (IH y I).
Qed.
Lemma through_all_tag f l x : In x (flat_map (through_blocks f) l) -> f (die_tag x) = true.
Proof. intros H. apply in_flat_map in H. destruct H as (y & I & J). now apply through_tag in J. Qed.

Lemma item_call_ok sp h rd children :
  Forall2 (calls sp h rd) (flat_map (through_blocks is_call) children)
    (map (item_call sp h rd) (flat_map (through_blocks is_call) children)).
Proof.
  apply forall2_map. intros d I. apply through_all_tag in I. destruct d as [t o a c]. cbn [die_tag] in I.
  destruct t; try discriminate. apply site_ok.
Qed.

Definition good_tree (rd : reading) (d : die) : Prop :=
  tree_64 d /\ proper_places (map (pair rd) (entries d)).
Lemma good_inside rd d x : good_tree rd d -> In x (entries d) -> good_tree rd x.
Proof.
  intros [A B] I. split.
  - intros e J. apply A. now apply (entries_trans d x).
  - intros e a n J. apply B. apply in_map_iff in J. destruct J as (y & <- & J).
    apply in_map. now apply (entries_trans d x).
Qed.

(** By induction on the size of the tree. *)
Lemma entries_size d x c : In c (die_children d) -> In x (entries c) -> (List.length (entries x) < List.length (entries d))%nat.
Proof.
  assert (LE : forall d x, In x (entries d) -> (List.length (entries x) <= List.length (entries d))%nat).
  { clear. intros d. induction d as [t o a c IH] using die_ind'. intros x [<-|H]; [reflexivity|].
    cbn [entries die_children List.length] in *. apply in_flat_map in H. destruct H as (y & I & J).
    rewrite Forall_forall in IH. pose proof (IH y I x J).
    assert (List.length (entries y) <= List.length (flat_map entries c))%nat; [|lia].
    clear - I. induction c as [|z c IH]; [contradiction|]. cbn [flat_map]. rewrite app_length.
    destruct I as [->|I]; [lia|]. specialize (IH I). lia. }
  intros I J. apply LE in J. destruct d as [t o a l]. cbn [entries die_children List.length] in *.
  assert (List.length (entries c) <= List.length (flat_map entries l))%nat; [|lia].
  clear - I. induction l as [|z l IH]; [contradiction|]. cbn [flat_map]. rewrite app_length.
  destruct I as [->|I]; [lia|]. specialize (IH I). lia.
Qed.

Lemma item_inlined_ok sp h rd : all_proper sp -> forall n d,
  (List.length (entries d) < n)%nat -> die_tag d = TagInlined -> good_tree rd d ->
  inlines sp h rd d (item_inlined sp h rd d).
Proof.
  intros P. induction n as [|n IH]; intros d L T G; [lia|].
  destruct d as [t o a c]. cbn [die_tag] in T. subst t. unfold item_inlined. cbn [die_attrs die_children].
  destruct (details_ok sp h rd a c P) as (A & B & C & D).
  { intros d I. destruct (good_inside rd _ d G) as [_ Q]; [now apply (in_children_through is_variable (Die TagInlined o a c))|].
    intros e x m [<-|[]]. apply Q. destruct d. now left. }
  rewrite A, B, C, D, attr_function_origin_given, attr_call_source_given. constructor.
  - apply extent_covers. apply (proj1 G (Die TagInlined o a c)). now left.
  - apply forall2_map. intros d I. apply IH.
    + assert (J : exists y, In y c /\ In d (entries y)).
      { apply in_flat_map in I. destruct I as (y & I & J). exists y. split; [exact I|]. now apply in_through in J. }
      destruct J as (y & I1 & I2).
      pose proof (entries_size (Die TagInlined o a c) d y I1 I2). lia.
    + apply through_all_tag in I. destruct (die_tag d); discriminate || reflexivity.
    + apply (good_inside rd _ d G). now apply (in_children_through is_inlined (Die TagInlined o a c)).
  - apply item_call_ok.
Qed.
