(** Proofs about the command line, path prefixes and the filters on single values. *)
From Coq Require Import List Arith NArith Bool String Ascii Lia Sorted Permutation.
From Coq Require Import ZifyBool ZifyNat ZifyN.
From Verif Require Import Base BaseProofs NamespaceModel NamespaceSpec NamespaceProofs TypeModel FileModel
  DiffModel OptionsModel FilterModel FilterSpec.
Import ListNotations.
Local Open Scope string_scope.

Lemma str_app_assoc (a b c : string) : (a ++ b) ++ c = a ++ b ++ c.
Proof. induction a; cbn; congruence. Qed.
Lemma str_app_nil (a : string) : a ++ "" = a.
Proof. induction a; cbn; congruence. Qed.
Lemma str_app_len (a b : string) : String.length (a ++ b) = String.length a + String.length b.
Proof. induction a; cbn; congruence. Qed.
Lemma str_app_inj (a b c : string) : a ++ b = a ++ c -> b = c.
Proof. induction a; cbn; intros H; [assumption|]. injection H as H. auto. Qed.
Lemma str_app_eq_len (a b c d : string) :
  a ++ b = c ++ d -> String.length a = String.length c -> a = c /\ b = d.
Proof.
  revert c. induction a as [|x a IH]; intros [|y c]; cbn; intros H L; try discriminate; auto.
  injection H as -> H. destruct (IH c H) as [-> ->]; auto.
Qed.

Lemma strip_prefix_spec old name rest : strip_prefix old name = Some rest <-> name = old ++ rest.
Proof.
  revert name. induction old as [|a old IH]; intros name; cbn.
  - split; [intros H; injection H; auto|intros ->; reflexivity].
  - destruct name as [|b name]; [split; discriminate|].
    destruct (Ascii.eqb_spec a b) as [->|N].
    + rewrite IH. split; [intros ->; reflexivity|intros H; injection H; auto].
    + split; [discriminate|]. intros H. injection H as H _. congruence.
Qed.
Lemma strip_prefix_none old name : strip_prefix old name = None <-> ~ has_prefix old name.
Proof.
  split.
  - intros H [r E]. apply strip_prefix_spec in E. congruence.
  - intros H. destruct (strip_prefix old name) as [r|] eqn:E; [|reflexivity].
    exfalso. apply H. exists r. now apply strip_prefix_spec.
Qed.

(** ** Splitting at the equals sign *)

Lemma has_char_cons c d s : has_char c (String d s) <-> c = d \/ has_char c s.
Proof.
  split.
  - intros ([|x a] & b & E); cbn in E; injection E as -> E; [auto|]. right. exists a, b. exact E.
  - intros [->|(a & b & ->)]; [exists "", s; reflexivity|]. exists (String d a), b. reflexivity.
Qed.
Lemma has_char_nil c : ~ has_char c "".
Proof. intros ([|] & b & E); discriminate. Qed.

Lemma split_at_eq_some s k v : split_at_eq s = Some (k, v) <-> key_value s k v.
Proof.
  unfold key_value. revert k. induction s as [|c s IH]; intros k; cbn.
  - split; [discriminate|]. intros [E _]. destruct k; discriminate.
  - destruct (Ascii.eqb_spec c "=") as [->|N].
    + split.
      * intros H. injection H as <- <-. split; [reflexivity|apply has_char_nil].
      * intros [E H]. destruct k as [|d k]; cbn in E.
        -- injection E as ->. reflexivity.
        -- injection E as <- E. exfalso. apply H. apply has_char_cons. auto.
    + split.
      * destruct (split_at_eq s) as [[k' v']|] eqn:E; [|discriminate].
        intros H. injection H as <- <-. destruct (IH k') as [H1 _].
        destruct (H1 eq_refl) as [-> H2]. split; [reflexivity|].
        rewrite has_char_cons. intros [<-|H]; auto.
      * intros [E H]. destruct k as [|d k]; cbn in E; injection E as -> E; [congruence|].
        destruct (IH k) as [_ H2]. rewrite H2; [reflexivity|]. split; [assumption|].
        intros H3. apply H. apply has_char_cons. auto.
Qed.
Lemma key_value_fun s k v k' v' : key_value s k v -> key_value s k' v' -> k = k' /\ v = v'.
Proof.
  intros H1 H2. apply split_at_eq_some in H1, H2. rewrite H1 in H2. injection H2. auto.
Qed.
Lemma split_at_eq_none s : split_at_eq s = None <-> ~ has_char "=" s.
Proof.
  induction s as [|c s IH]; cbn.
  - split; [intros _; apply has_char_nil|reflexivity].
  - rewrite has_char_cons. destruct (Ascii.eqb_spec c "=") as [->|N].
    + split; [discriminate|]. intros H. exfalso. auto.
    + destruct (split_at_eq s) as [[k v]|] eqn:E.
      * split; [discriminate|]. intros H. assert (has_char "=" s); [|tauto].
        apply split_at_eq_some in E. destruct E as [-> _]. now exists k, v.
      * destruct IH as [IH _]. specialize (IH eq_refl). split; [|reflexivity]. intros _ [H|H]; auto.
Qed.

Lemma for_values_app {A} (step : A -> string -> option A) l m a :
  for_values step (l ++ m) a =
  match for_values step l a with Some b => for_values step m b | None => None end.
Proof.
  revert a. induction l as [|v l IH]; intros a; cbn; [reflexivity|].
  destruct (step a v); auto.
Qed.

(** Acceptance of a list of values. *)
Lemma for_values_some {A} (step : A -> string -> option A) (ok : string -> Prop) :
  (forall a v, ok v <-> exists b, step a v = Some b) ->
  forall l a, (forall v, In v l -> ok v) <-> exists b, for_values step l a = Some b.
Proof.
  intros H. induction l as [|v l IH]; intros a; cbn.
  - split; [eauto|intros _ ? []].
  - split.
    + intros K. destruct (proj1 (H a v)) as [b E]; [auto|]. rewrite E. apply IH. auto.
    + intros [b E]. destruct (step a v) as [a'|] eqn:S; [|discriminate].
      intros w [<-|I]; [apply (H a); eauto|]. apply (proj2 (IH a')); eauto.
Qed.

(** An invariant of a loop over values, by the values seen. *)
Lemma for_values_inv {A} (step : A -> string -> option A) (R : list string -> A -> Prop) :
  (forall seen a v b, R seen a -> step a v = Some b -> R (seen ++ [v])%list b) ->
  forall l a b, R [] a -> for_values step l a = Some b -> R l b.
Proof.
  intros H l a b. change l with ([] ++ l)%list at 2. generalize (@nil string) as seen. revert a.
  induction l as [|v l IH]; intros a seen; cbn.
  - intros R0 E. injection E as <-. now rewrite app_nil_r.
  - intros R0 E. destruct (step a v) as [a'|] eqn:S; [|discriminate].
    replace (seen ++ v :: l)%list with ((seen ++ [v]) ++ l)%list by (now rewrite <- app_assoc).
    eapply IH; [|exact E]. eapply H; eauto.
Qed.

(** ** Path prefixes *)

Lemma parse_prefixes values pm :
  for_values parse_prefix values [] = Some pm <->
  Forall2 (fun v p => key_value v (fst p) (snd p)) values pm.
Proof.
  assert (G : forall values acc pm, for_values parse_prefix values acc = Some pm <->
    exists l, pm = (acc ++ l)%list /\ Forall2 (fun v p => key_value v (fst p) (snd p)) values l).
  { clear. induction values as [|v vs IH]; intros acc pm; cbn.
    - split.
      + intros H. injection H as <-. exists []. rewrite app_nil_r. auto.
      + intros (l & -> & F). inversion F. now rewrite app_nil_r.
    - unfold parse_prefix at 1. destruct (split_at_eq v) as [[k x]|] eqn:E.
      + rewrite IH. split.
        * intros (l & -> & F). exists ((k, x) :: l). rewrite <- app_assoc. split; [reflexivity|].
          constructor; [|assumption]. now apply split_at_eq_some.
        * intros (l & -> & F). inversion F as [|? [k' x'] ? l' K F' ]; subst.
          apply split_at_eq_some in K. cbn [fst snd] in K. rewrite E in K. injection K as <- <-.
          exists l'. rewrite <- app_assoc. auto.
      + split; [discriminate|]. intros (l & -> & F).
        inversion F as [|? [k' x'] ? l' K F' ]; subst. apply split_at_eq_some in K. congruence. }
  rewrite G. split.
  - intros (l & -> & F). exact F.
  - intros F. exists pm. auto.
Qed.

(** What [prefix_map] does: the first pair in the list that matches. *)
Lemma prefix_map_first pm name :
  (prefix_map pm name = ("", name) /\ forall p, In p pm -> ~ has_prefix (fst p) name) \/
  exists l old new m rest, pm = (l ++ (old, new) :: m)%list /\ name = old ++ rest /\
    prefix_map pm name = (new, rest) /\ forall p, In p l -> ~ has_prefix (fst p) name.
Proof.
  induction pm as [|[old new] pm IH]; cbn [prefix_map].
  - left. split; [reflexivity|]. intros ? [].
  - destruct (strip_prefix old name) as [rest|] eqn:E.
    + right. exists [], old, new, pm, rest. apply strip_prefix_spec in E.
      split; [reflexivity|]. split; [assumption|]. split; [reflexivity|]. intros ? [].
    + apply strip_prefix_none in E. destruct IH as [[H1 H2]|(l & o & n & m & r & -> & -> & H3 & H4)].
      * left. split; [assumption|]. intros p [<-|I]; auto.
      * right. exists ((old, new) :: l), o, n, m, r. split; [reflexivity|]. split; [reflexivity|].
        split; [assumption|]. intros p [<-|I]; auto.
Qed.

Definition len_desc (p q : string * string) : comparison :=
  Nat.compare (String.length (fst q)) (String.length (fst p)).
Lemma len_desc_tp : total_preorder len_desc.
Proof.
  unfold len_desc. split.
  - intros x. apply Nat.compare_refl.
  - intros x y. apply Nat.compare_antisym.
  - intros x y z. rewrite !Nat.compare_le_iff. lia.
Qed.

Lemma has_prefix_len_eq p q name :
  has_prefix p name -> has_prefix q name -> String.length p = String.length q -> p = q.
Proof. intros [r ->] [s E] L. destruct (str_app_eq_len _ _ _ _ E L); auto. Qed.

Lemma prefix_map_rewrites given name :
  let '(new, rest) := prefix_map (stable_sort len_desc given) name in rewrites given name new rest.
Proof.
  pose proof (stable_sort_perm len_desc given) as P.
  pose proof (stable_sort_sorted len_desc len_desc_tp given) as S.
  destruct (prefix_map_first (stable_sort len_desc given) name)
    as [[-> H]|(l & old & new & m & rest & E & N & -> & H)].
  - apply rw_none. intros p I. apply H. eapply Permutation_in; [apply Permutation_sym, P|exact I].
  - assert (M : forall p, In p given -> has_prefix (fst p) name ->
                  String.length (fst p) <= String.length old).
    { intros p I HP. apply (Permutation_in p (Permutation_sym P)) in I. rewrite E in I, S.
      apply in_app_or in I. destruct I as [I|[<-|I]].
      - exfalso. exact (H p I HP).
      - cbn. lia.
      - clear - S I. induction l as [|q l IH]; cbn in S; inversion S as [|? ? S1 S2]; subst; auto.
        rewrite Forall_forall in S2. specialize (S2 _ I). unfold le_cmp, len_desc in S2. cbn in S2.
        rewrite Nat.compare_le_iff in S2. exact S2. }
    (* the entries of the same length, in the given order *)
    pose proof (stable_sort_stable len_desc len_desc_tp (old, new) given) as F.
    set (f := fun y => match len_desc (old, new) y with Eq => true | _ => false end) in *.
    rewrite E in F. rewrite filter_app in F. cbn [filter] in F.
    assert (f (old, new) = true) as FT.
    { unfold f, len_desc. cbn [fst]. now rewrite Nat.compare_refl. }
    rewrite FT in F.
    assert (SP : forall g a x b, (filter g given = a ++ x :: b)%list ->
              exists u v, given = (u ++ x :: v)%list /\ filter g u = a).
    { clear. intros g. induction given as [|y l IH]; intros a x b; cbn.
      - destruct a; discriminate.
      - destruct (g y) eqn:G.
        + destruct a as [|z a]; cbn; intros K; injection K as -> K.
          * exists [], l. auto.
          * destruct (IH _ _ _ K) as (u & v & -> & <-). exists (z :: u), v. cbn. rewrite G. auto.
        + intros K. destruct (IH _ _ _ K) as (u & v & -> & <-). exists (y :: u), v. cbn.
          rewrite G. auto. }
    symmetry in F. destruct (SP _ _ _ _ F) as (u & v & -> & U).
    eapply rw_some; [reflexivity|exact N|exact M|].
    intros p I X. apply (H p).
    + assert (In p (filter f u)) as J.
      { apply filter_In. split; [assumption|]. unfold f, len_desc. cbn [fst]. rewrite X.
        now rewrite Nat.compare_refl. }
      rewrite U in J. apply filter_In in J. tauto.
    + rewrite X. exists rest. exact N.
Qed.

Lemma rewrites_fun given name n1 r1 n2 r2 :
  rewrites given name n1 r1 -> rewrites given name n2 r2 -> n1 = n2 /\ r1 = r2.
Proof.
  intros H1 H2. inversion H1 as [A1|b1 o1 ? a1 ? G1 N1 M1 F1]; inversion H2 as [A2|b2 o2 ? a2 ? G2 N2 M2 F2]; subst.
  - auto.
  - exfalso. apply (A1 (o2, n2)); [apply in_app_iff; cbn; auto|]. exists r2. reflexivity.
  - exfalso. apply (A2 (o1, n1)); [apply in_app_iff; cbn; auto|]. exists r1. reflexivity.
  - assert (L : String.length o1 = String.length o2).
    { apply Nat.le_antisymm.
      - apply (M2 (o1, n1)); [apply in_app_iff; cbn; auto|exists r1; reflexivity].
      - apply (M1 (o2, n2)); [rewrite G2; apply in_app_iff; cbn; auto|].
        exists r2. exact N2. }
    destruct (str_app_eq_len _ _ _ _ N2 L) as [-> ->]. split; [|reflexivity].
    clear - G2 F1 F2. revert b2 G2 F2. induction b1 as [|x b1 IH]; intros [|y b2] G F2; cbn in *.
    + injection G. auto.
    + injection G as <- G. exfalso. apply (F2 (o2, n1)); auto.
    + injection G as -> G. exfalso. apply (F1 (o2, n2)); auto.
    + injection G as -> G. apply (IH) with (b2 := b2); auto.
Qed.

Lemma before_at_cases s :
  ~ has_char "@" (before_at s) /\
  ((s = before_at s) \/ exists r, s = before_at s ++ String "@" r).
Proof.
  induction s as [|c s [H IH]]; cbn.
  - split; [apply has_char_nil|auto].
  - destruct (Ascii.eqb_spec c "@") as [->|N].
    + split; [apply has_char_nil|]. right. exists s. reflexivity.
    + split; [rewrite has_char_cons; intros [<-|H1]; auto|].
      destruct IH as [IH|[r IH]]; [left; congruence|right; exists r; cbn; congruence].
Qed.
Lemma before_at_cut s : cut_at s (before_at s).
Proof.
  destruct (before_at_cases s) as [H [E|[r E]]].
  - rewrite <- E in *. now apply cut_none.
  - rewrite E at 1. now apply cut_some.
Qed.
Lemma before_at_stop s r : ~ has_char "@" s -> before_at (s ++ String "@" r) = s.
Proof.
  induction s as [|c s IH]; intros H; cbn; [reflexivity|].
  rewrite has_char_cons in H. destruct (Ascii.eqb_spec c "@") as [->|N]; [exfalso; auto|].
  f_equal. auto.
Qed.
Lemma before_at_whole s : ~ has_char "@" s -> before_at s = s.
Proof.
  induction s as [|c s IH]; intros H; cbn; [reflexivity|].
  rewrite has_char_cons in H. destruct (Ascii.eqb_spec c "@") as [->|N]; [exfalso; auto|].
  f_equal. auto.
Qed.
Lemma cut_at_iff s k : cut_at s k <-> k = before_at s.
Proof.
  split; [|intros ->; apply before_at_cut].
  intros H. inversion H; subst; symmetry; [now apply before_at_whole|now apply before_at_stop].
Qed.

(** The path of a unit as computed from parsed options. *)
Definition unit_path (o : options) (u : unit) : string :=
  let '(prefix, suffix) := prefix_map (o_prefix_map o) (name_or_empty (un_name u)) in
  prefix ++ before_at suffix.
Definition unit_filter_path (o : options) (u : unit) : string :=
  let '(prefix, suffix) := prefix_map (o_prefix_map o) (name_or_empty (un_name u)) in
  prefix ++ suffix.

(** The configured mappings, as parsed. *)
Definition maps (given : list (string * string)) (o : options) : Prop :=
  o_prefix_map o = stable_sort len_desc given.

Lemma match_path_iff given o u p : maps given o -> match_path given u p <-> p = unit_path o u.
Proof.
  intros M. unfold match_path, unit_path. rewrite M.
  pose proof (prefix_map_rewrites given (name_or_empty (un_name u))) as R.
  destruct (prefix_map _ _) as [n r]. split.
  - intros (n' & r' & k & R' & C & ->). destruct (rewrites_fun _ _ _ _ _ _ R R') as [-> ->].
    apply cut_at_iff in C. congruence.
  - intros ->. exists n, r, (before_at r). split; [assumption|]. split; [apply before_at_cut|auto].
Qed.
Lemma filter_path_iff given o u p :
  maps given o -> filter_path given u p <-> p = unit_filter_path o u.
Proof.
  intros M. unfold filter_path, unit_filter_path. rewrite M.
  pose proof (prefix_map_rewrites given (name_or_empty (un_name u))) as R.
  destruct (prefix_map _ _) as [n r]. split.
  - intros (n' & r' & R' & ->). destruct (rewrites_fun _ _ _ _ _ _ R R') as [-> ->]. reflexivity.
  - intros ->. exists n, r. auto.
Qed.

Lemma unit_cmp_id_path o a b : unit_cmp_id o a b = cmp_string (unit_path o a) (unit_path o b).
Proof. reflexivity. Qed.

(** ** Filters on single values *)

Lemma filter_name_iff o n : filter_name o n = true <-> name_matches (f_name (o_filter o)) n.
Proof.
  unfold filter_name, name_matches. destruct (f_name (o_filter o)) as [f|].
  - destruct n as [n|].
    + rewrite String.eqb_eq. split; [intros ->; auto|]. intros H. specialize (H f eq_refl).
      now injection H.
    + split; [discriminate|]. intros H. specialize (H f eq_refl). discriminate.
  - split; [intros _ s E; discriminate|reflexivity].
Qed.
Lemma filter_namespace_iff o n :
  filter_namespace o n = true <-> namespace_matches (f_namespace (o_filter o)) n.
Proof.
  unfold filter_namespace, namespace_matches. destruct (f_namespace (o_filter o)) as [|c f].
  - split; auto.
  - destruct n as [n|].
    + rewrite is_within_spec. split.
      * intros [r E]. right. exists n, (ns_path n), r. split; [reflexivity|]. split; [|assumption].
        now apply path_of_ns_path.
      * intros [?|(n' & l & r & X & Q & ->)]; [discriminate|]. injection X as <-.
        apply path_of_ns_path in Q. exists r. auto.
    + split; [discriminate|]. intros [?|(n' & l & r & X & _)]; discriminate.
Qed.
Lemma filter_inline_iff o b :
  filter_function_inline o b = true <-> inline_matches (f_function_inline (o_filter o)) b.
Proof.
  unfold filter_function_inline, inline_matches. destruct (f_function_inline (o_filter o)) as [c|].
  - rewrite Bool.eqb_true_iff. split; [intros -> ? E; now injection E|].
    intros H. symmetry. apply H. reflexivity.
  - split; [discriminate|reflexivity].
Qed.

Lemma is_none_iff {A} (x : option A) : is_none x = true <-> x = None.
Proof. destruct x; cbn; split; congruence. Qed.
Lemma is_none_false {A} (x : option A) : is_none x = false <-> x <> None.
Proof. destruct x; cbn; split; congruence. Qed.

Lemma filter_unit_iff given o u : maps given o -> filter_unit o u = true <-> unit_listed given o u.
Proof.
  intros M. unfold filter_unit, unit_listed. destruct (f_unit (o_filter o)) as [f|].
  - change (match un_name u with Some n => n | None => "" end) with (name_or_empty (un_name u)).
    assert (unit_filter_path o u = f <-> forall f0, Some f = Some f0 -> filter_path given u f0) as <-.
    { split.
      - intros E f0 X. injection X as <-. now apply (filter_path_iff given o u f M).
      - intros H. symmetry. apply (filter_path_iff given o u f M). auto. }
    unfold unit_filter_path. destruct (prefix_map _ _) as [n r].
    rewrite <- cmp_string_eq. destruct (cmp_string _ _); split; congruence.
  - split; [intros _ ? E; discriminate|reflexivity].
Qed.

Lemma filter_function_iff o f : filter_function o f = true <-> function_listed o f.
Proof.
  unfold filter_function, function_listed.
  rewrite <- filter_name_iff, <- filter_namespace_iff, <- filter_inline_iff.
  destruct (negb (fn_inline f) && _) eqn:E.
  - split; [discriminate|]. intros ([X|[X Y]] & _).
    + rewrite X in E. discriminate.
    + apply is_none_false in X, Y. rewrite X, Y in E. cbn in E. destruct (fn_inline f); discriminate.
  - rewrite !andb_true_iff. assert (fn_inline f = true \/ opt64_get (fn_address f) <> None /\
      opt64_get (fn_size f) <> None) as H; [|tauto].
    destruct (fn_inline f); [auto|right]. cbn in E. apply orb_false_iff in E.
    rewrite <- !is_none_false. tauto.
Qed.
Lemma filter_variable_iff o v : filter_variable o v = true <-> variable_listed o v.
Proof.
  unfold filter_variable, variable_listed. rewrite <- filter_name_iff, <- filter_namespace_iff.
  destruct (negb (va_declaration v) && _) eqn:E.
  - split; [discriminate|]. intros ([X|X] & _).
    + rewrite X in E. discriminate.
    + apply is_none_false in X. rewrite X in E. destruct (va_declaration v); discriminate.
  - rewrite !andb_true_iff. assert (va_declaration v = true \/ opt64_get (va_address v) <> None)
      as H; [|tauto].
    destruct (va_declaration v); [auto|right]. now apply is_none_false.
Qed.
