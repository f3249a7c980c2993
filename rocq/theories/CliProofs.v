(** Proofs about the interpretation of the command line. *)
From Coq Require Import List Arith NArith Bool String Ascii Lia Sorted Permutation.
From Coq Require Import ZifyBool ZifyNat ZifyN.
From Verif Require Import Base BaseProofs NamespaceModel NamespaceSpec TypeModel FileModel
  DiffModel OptionsModel FilterModel FilterSpec OptionsProofs.
Import ListNotations.
Local Open Scope string_scope.

Definition member_str (v : string) (words : list string) : bool := existsb (String.eqb v) words.
Lemma member_str_iff v words : member_str v words = true <-> In v words.
Proof.
  unfold member_str. rewrite existsb_exists. split.
  - intros (x & I & E). apply String.eqb_eq in E. now subst.
  - intros I. exists v. split; [assumption|apply String.eqb_refl].
Qed.

(** A flag that certain words switch on. *)
Lemma for_values_flag {A} (step : A -> string -> option A) (g : A -> bool) words :
  (forall a v b, step a v = Some b -> g b = g a || member_str v words) ->
  forall l a b, for_values step l a = Some b ->
    (g b = true <-> g a = true \/ exists w, In w l /\ In w words).
Proof.
  intros H. induction l as [|v l IH]; intros a b; cbn.
  - intros E. injection E as ->. split; [auto|]. intros [?|(w & [] & _)]; auto.
  - destruct (step a v) as [a'|] eqn:S; [|discriminate]. intros E.
    rewrite (IH _ _ E), (H _ _ _ S), orb_true_iff, member_str_iff. split.
    + intros [[X|X]|(w & I & J)]; eauto.
    + intros [X|(w & [<-|I] & J)]; eauto.
Qed.

Ltac flag_step :=
  let v := fresh "v" in let a := fresh "a" in let b := fresh "b" in let E := fresh "E" in
  intros a v b; destruct a;
  repeat match goal with
  | |- (if String.eqb v ?w then _ else _) = Some _ -> _ =>
      let Q := fresh "Q" in destruct (String.eqb v w) eqn:Q
  end; intros E; try discriminate E; injection E as <-; cbn;
  repeat match goal with Q : String.eqb v ?w = true |- _ => apply String.eqb_eq in Q; subst v end;
  cbn;
  repeat match goal with Q : String.eqb v ?w = false |- _ => rewrite Q; clear Q end;
  rewrite ?orb_true_r, ?orb_false_r; reflexivity.

Section Categories.
  Variables (l : list string) (b : category_opts).
  Hypothesis E : for_values parse_category l (mkCategoryOpts false false false false false) = Some b.

  Lemma category_flag (g : category_opts -> bool) w :
    g (mkCategoryOpts false false false false false) = false ->
    (forall a v b, parse_category a v = Some b -> g b = g a || member_str v [w]) ->
    (g b = true <-> In w l).
  Proof.
    intros G H. rewrite (for_values_flag _ _ _ H _ _ _ E), G. split.
    - intros [?|(x & I & [<-|[]])]; [discriminate|assumption].
    - intros I. right. exists w. cbn. auto.
  Qed.
  Lemma category_file : c_file b = true <-> In "file" l.
  Proof. apply category_flag; [reflexivity|]. unfold parse_category. flag_step. Qed.
  Lemma category_unit : c_unit b = true <-> In "unit" l.
  Proof. apply category_flag; [reflexivity|]. unfold parse_category. flag_step. Qed.
  Lemma category_type : c_type b = true <-> In "type" l.
  Proof. apply category_flag; [reflexivity|]. unfold parse_category. flag_step. Qed.
  Lemma category_function : c_function b = true <-> In "function" l.
  Proof. apply category_flag; [reflexivity|]. unfold parse_category. flag_step. Qed.
  Lemma category_variable : c_variable b = true <-> In "variable" l.
  Proof. apply category_flag; [reflexivity|]. unfold parse_category. flag_step. Qed.
End Categories.

Section Print.
  Variables (l : list string) (a b : print_opts).
  Hypothesis E : for_values parse_print l a = Some b.
  Ltac pf := eapply for_values_flag; [|exact E]; unfold parse_print; flag_step.
  Lemma print_source : p_source b = true <->
    p_source a = true \/ exists w, In w l /\ In w ["all"; "source"].
  Proof. pf. Qed.
  Lemma print_file_address : p_file_address b = true <->
    p_file_address a = true \/ exists w, In w l /\ In w ["all"; "address"; "file-address"].
  Proof. pf. Qed.
  Lemma print_unit_address : p_unit_address b = true <->
    p_unit_address a = true \/ exists w, In w l /\ In w ["all"; "address"; "unit-address"].
  Proof. pf. Qed.
  Lemma print_function_calls : p_function_calls b = true <->
    p_function_calls a = true \/ exists w, In w l /\ In w ["all"; "function-calls"].
  Proof. pf. Qed.
  Lemma print_function_instructions : p_function_instructions b = true <->
    p_function_instructions a = true \/ exists w, In w l /\ In w ["all"; "function-instructions"].
  Proof. pf. Qed.
  Lemma print_function_variables : p_function_variables b = true <->
    p_function_variables a = true \/ exists w, In w l /\ In w ["all"; "function-variables"].
  Proof. pf. Qed.
  Lemma print_function_stack_frame : p_function_stack_frame b = true <->
    p_function_stack_frame a = true \/ exists w, In w l /\ In w ["all"; "function-stack-frame"].
  Proof. pf. Qed.
  Lemma print_inlined_function_parameters : p_inlined_function_parameters b = true <->
    p_inlined_function_parameters a = true \/
    exists w, In w l /\ In w ["all"; "inlined-function-parameters"].
  Proof. pf. Qed.
  Lemma print_variable_locations : p_variable_locations b = true <->
    p_variable_locations a = true \/ exists w, In w l /\ In w ["all"; "variable-locations"].
  Proof. pf. Qed.
End Print.

Section Ignore.
  Variables (l : list string) (a b : ignore_opts).
  Hypothesis E : for_values parse_ignore l a = Some b.
  Ltac pf := eapply for_values_flag; [|exact E]; unfold parse_ignore; flag_step.
  Lemma ignore_added : i_added b = true <->
    i_added a = true \/ exists w, In w l /\ In w ["added"].
  Proof. pf. Qed.
  Lemma ignore_deleted : i_deleted b = true <->
    i_deleted a = true \/ exists w, In w l /\ In w ["deleted"].
  Proof. pf. Qed.
  Lemma ignore_function_address : i_function_address b = true <->
    i_function_address a = true \/ exists w, In w l /\ In w ["address"; "function-address"].
  Proof. pf. Qed.
  Lemma ignore_function_size : i_function_size b = true <->
    i_function_size a = true \/ exists w, In w l /\ In w ["function-size"].
  Proof. pf. Qed.
  Lemma ignore_function_inline : i_function_inline b = true <->
    i_function_inline a = true \/ exists w, In w l /\ In w ["function-inline"].
  Proof. pf. Qed.
  Lemma ignore_function_linkage_name : i_function_linkage_name b = true <->
    i_function_linkage_name a = true \/ exists w, In w l /\ In w ["linkage-name"].
  Proof. pf. Qed.
  Lemma ignore_function_symbol_name : i_function_symbol_name b = true <->
    i_function_symbol_name a = true \/
    exists w, In w l /\ In w ["symbol-name"; "function-symbol-name"].
  Proof. pf. Qed.
  Lemma ignore_variable_address : i_variable_address b = true <->
    i_variable_address a = true \/ exists w, In w l /\ In w ["address"; "variable-address"].
  Proof. pf. Qed.
  Lemma ignore_variable_linkage_name : i_variable_linkage_name b = true <->
    i_variable_linkage_name a = true \/ exists w, In w l /\ In w ["linkage-name"].
  Proof. pf. Qed.
  Lemma ignore_variable_symbol_name : i_variable_symbol_name b = true <->
    i_variable_symbol_name a = true \/
    exists w, In w l /\ In w ["symbol-name"; "variable-symbol-name"].
  Proof. pf. Qed.
End Ignore.

(** ** Acceptance *)

Ltac accept_step :=
  let a := fresh "a" in let v := fresh "v" in
  intros a v; destruct a; rewrite <- member_str_iff; unfold member_str; cbn [existsb];
  repeat match goal with
  | |- context [String.eqb v ?w] =>
      let Q := fresh "Q" in destruct (String.eqb v w) eqn:Q; cbn [orb];
      [split; [intros _; eexists; reflexivity|reflexivity]|]
  end; split; [discriminate|intros [? ?]; discriminate].

Lemma category_accepts l a :
  (forall v, In v l -> In v category_words) <-> exists b, for_values parse_category l a = Some b.
Proof.
  apply (for_values_some parse_category (fun v => In v category_words)). unfold parse_category.
  unfold category_words. accept_step.
Qed.
Lemma print_accepts l a :
  (forall v, In v l -> In v print_words) <-> exists b, for_values parse_print l a = Some b.
Proof.
  apply (for_values_some parse_print (fun v => In v print_words)). unfold parse_print.
  unfold print_words. accept_step.
Qed.
Lemma ignore_accepts l a :
  (forall v, In v l -> In v ignore_words) <-> exists b, for_values parse_ignore l a = Some b.
Proof.
  apply (for_values_some parse_ignore (fun v => In v ignore_words)). unfold parse_ignore.
  unfold ignore_words. accept_step.
Qed.

(** ** Filters *)

Lemma parse_filter_kv f v k x : key_value v k x ->
  parse_filter f v =
    if member_str k ["inline"; "function-inline"] then
      if member_str x ["y"; "yes"] then
        Some (mkFilterOpts (Some true) (f_name f) (f_namespace f) (f_unit f))
      else if member_str x ["n"; "no"] then
        Some (mkFilterOpts (Some false) (f_name f) (f_namespace f) (f_unit f))
      else None
    else if String.eqb k "name" then
      Some (mkFilterOpts (f_function_inline f) (Some x) (f_namespace f) (f_unit f))
    else if String.eqb k "namespace" then
      Some (mkFilterOpts (f_function_inline f) (f_name f) (split_colons EmptyString x) (f_unit f))
    else if String.eqb k "unit" then
      Some (mkFilterOpts (f_function_inline f) (f_name f) (f_namespace f) (Some x))
    else None.
Proof.
  intros H. apply split_at_eq_some in H. unfold parse_filter. rewrite H.
  unfold member_str. cbn [existsb]. now rewrite !orb_false_r.
Qed.

Lemma filter_accepts l a :
  (forall v, In v l -> filter_accepted v) <-> exists b, for_values parse_filter l a = Some b.
Proof.
  apply (for_values_some parse_filter filter_accepted). clear. intros f v. unfold filter_accepted.
  destruct (split_at_eq v) as [[k x]|] eqn:E.
  - apply split_at_eq_some in E. rewrite (parse_filter_kv f v k x E).
    assert ((exists k0 x0, key_value v k0 x0 /\
      (In k0 ["inline"; "function-inline"] /\ In x0 ["y"; "yes"; "n"; "no"] \/
       In k0 ["name"; "namespace"; "unit"])) <->
      (In k ["inline"; "function-inline"] /\ In x ["y"; "yes"; "n"; "no"] \/
       In k ["name"; "namespace"; "unit"])) as ->.
    { split; [|eauto]. intros (k0 & x0 & K & H).
      destruct (key_value_fun _ _ _ _ _ E K) as [-> ->]. exact H. }
    rewrite <- !member_str_iff.
    destruct (member_str k ["inline"; "function-inline"]) eqn:M.
    + unfold member_str. cbn [existsb]. rewrite !orb_false_r.
      destruct (String.eqb x "y"), (String.eqb x "yes"), (String.eqb x "n"), (String.eqb x "no");
        cbn [orb];
        try (split; [intros _; eexists; reflexivity|auto]).
      split; [|intros [? ?]; discriminate].
      intros [[_ ?]|H]; [discriminate|]. exfalso. clear - M H.
      apply member_str_iff in M. cbn in M. destruct M as [<-|[<-|[]]]; discriminate.
    + unfold member_str at 2. cbn [existsb].
      destruct (String.eqb k "name"), (String.eqb k "namespace"), (String.eqb k "unit"); cbn [orb];
        try (split; [intros _; eexists; reflexivity|auto]).
      split; [intros [[? _]|?]; discriminate|intros [? ?]; discriminate].
  - unfold parse_filter. rewrite E. split; [|intros [? ?]; discriminate].
    intros (k & x & K & _). apply split_at_eq_some in K. congruence.
Qed.

Lemma last_given_snoc keys l v x :
  last_given keys (l ++ [v]) x <->
  (exists k, key_value v k x /\ In k keys) \/
  ((forall k y, key_value v k y -> ~ In k keys) /\ last_given keys l x).
Proof.
  unfold last_given. split.
  - intros (b & w & a & k & E & K & I & N).
    destruct (@exists_last _ (w :: a)) as (a' & z & Z); [discriminate|].
    rewrite Z, app_assoc in E. apply app_inj_tail in E. destruct E as [-> <-].
    destruct a' as [|w' a']; cbn in Z; injection Z as <- Z.
    + left. eauto.
    + right. split.
      * intros k' y K'. apply (N v k' y); [|assumption]. rewrite Z. apply in_app_iff. cbn. auto.
      * exists b, w, a', k. repeat split; auto; try apply K.
        intros u k' y J. apply N. rewrite Z. apply in_app_iff. auto.
  - intros [(k & K & I)|(N & b & w & a & k & -> & K & I & N')].
    + exists l, v, [], k. repeat split; auto; apply K.
    + exists b, w, (a ++ [v])%list, k. rewrite <- app_assoc. repeat split; auto; try apply K.
      intros u k' y J K'. apply in_app_iff in J. destruct J as [J|[<-|[]]]; eauto.
Qed.
Lemma never_given_snoc keys l v :
  never_given keys (l ++ [v]) <->
  never_given keys l /\ forall k y, key_value v k y -> ~ In k keys.
Proof.
  unfold never_given. split.
  - intros H. split; intros; eapply H; eauto; apply in_app_iff; cbn; auto.
  - intros [H1 H2] w k y I. apply in_app_iff in I. destruct I as [I|[<-|[]]]; eauto.
Qed.

(** A setting is that of the last value for its keys. *)
Definition setting {B} (keys l : list string) (unset : B) (read : string -> B) (x : B) : Prop :=
  (never_given keys l /\ x = unset) \/ exists s, last_given keys l s /\ x = read s.

Lemma filter_setting {B} keys (g : filter_opts -> B) (read : string -> B) l a b :
  (forall f v f' k x, key_value v k x -> parse_filter f v = Some f' ->
     g f' = if member_str k keys then read x else g f) ->
  for_values parse_filter l a = Some b -> setting keys l (g a) read (g b).
Proof.
  intros H. apply (for_values_inv parse_filter (fun l b => setting keys l (g a) read (g b))).
  - intros seen f v f' S E.
    assert (exists k x, key_value v k x) as (k & x & K).
    { unfold parse_filter in E. destruct (split_at_eq v) as [[k x]|] eqn:Q; [|discriminate].
      exists k, x. now apply split_at_eq_some. }
    pose proof (H _ _ _ _ _ K E) as ->. unfold setting.
    destruct (member_str k keys) eqn:M.
    + right. exists x. split; [|reflexivity]. apply last_given_snoc. left. exists k.
      split; [assumption|]. now apply member_str_iff.
    + assert (N : forall k' y, key_value v k' y -> ~ In k' keys).
      { intros k' y K' I. destruct (key_value_fun _ _ _ _ _ K K') as [-> ->].
        apply member_str_iff in I. congruence. }
      destruct S as [[S1 S2]|(s & S1 & S2)].
      * left. split; [|assumption]. apply never_given_snoc. auto.
      * right. exists s. split; [|assumption]. apply last_given_snoc. auto.
  - left. split; [intros ? ? ? []|reflexivity].
Qed.

Ltac setting_step :=
  let K := fresh "K" in
  intros f v f' k x K; rewrite (parse_filter_kv _ _ _ _ K); unfold member_str; cbn [existsb];
  rewrite ?orb_false_r;
  repeat match goal with
  | |- context [String.eqb k ?w] => 
      let Q := fresh "Q" in destruct (String.eqb k w) eqn:Q;
      [apply String.eqb_eq in Q; subst k; cbn|]
  end; cbn [orb];
  repeat match goal with
  | |- context [if ?c then _ else _] => destruct c eqn:?
  end; let X := fresh in intros X; try discriminate X; injection X as <-; cbn; try reflexivity.

Section Filters.
  Variables (l : list string) (b : filter_opts).
  Hypothesis E : for_values parse_filter l (mkFilterOpts None None [] None) = Some b.
  Lemma filter_opt_name : setting ["name"] l None Some (f_name b).
  Proof. refine (filter_setting _ f_name Some _ _ _ _ E). setting_step. Qed.
  Lemma filter_opt_unit : setting ["unit"] l None Some (f_unit b).
  Proof. refine (filter_setting _ f_unit Some _ _ _ _ E). setting_step. Qed.
  Lemma filter_opt_namespace :
    setting ["namespace"] l [] (split_colons "") (f_namespace b).
  Proof. refine (filter_setting _ f_namespace (split_colons "") _ _ _ _ E). setting_step. Qed.
  Lemma filter_opt_inline :
    setting ["inline"; "function-inline"] l None (fun s => Some (member_str s ["y"; "yes"]))
      (f_function_inline b).
  Proof.
    refine (filter_setting _ f_function_inline (fun s => Some (member_str s ["y"; "yes"])) _ _ _ _ E).
    clear. unfold member_str.
    intros f v f' k x K. rewrite (parse_filter_kv _ _ _ _ K). unfold member_str. cbn [existsb].
    destruct (String.eqb k "inline" || (String.eqb k "function-inline" || false)).
    - destruct (String.eqb x "y" || _); [intros H; injection H as <-; reflexivity|].
      destruct (String.eqb x "n" || _); [intros H; injection H as <-; reflexivity|discriminate].
    - destruct (String.eqb k "name"); [intros H; injection H as <-; reflexivity|].
      destruct (String.eqb k "namespace"); [intros H; injection H as <-; reflexivity|].
      destruct (String.eqb k "unit"); [intros H; injection H as <-; reflexivity|discriminate].
  Qed.
End Filters.

(** ** Namespace paths *)

Lemma split_colons_cons2 cur c d s :
  split_colons cur (String c (String d s)) =
  if Ascii.eqb c ":" && Ascii.eqb d ":" then cur :: split_colons "" s
  else split_colons (cur ++ String c "") (String d s).
Proof. reflexivity. Qed.

Lemma str_snoc u v x y : u ++ String x "" = v ++ String y "" -> u = v /\ x = y.
Proof.
  revert v. induction u as [|z u IH]; intros [|w v]; cbn; intros H.
  - injection H. auto.
  - injection H as -> H. destruct v; discriminate.
  - injection H as -> H. destruct u; discriminate.
  - injection H as -> H. destruct (IH _ H) as [-> ->]. auto.
Qed.
Lemma has_colons_snoc cur c :
  ~ has_colons cur -> has_colons (cur ++ String c "") -> c = ":"%char /\ ends_with_colon cur.
Proof.
  intros N (a & b & E).
  assert (H : b = "" \/ exists b' x, b = b' ++ String x "").
  { clear. induction b as [|y b [->|(b' & x & ->)]]; auto; right.
    - exists "", y. reflexivity.
    - exists (String y b'), x. reflexivity. }
  destruct H as [->|(b' & x & ->)].
  - replace (a ++ "::" ++ "") with ((a ++ ":") ++ ":") in E by (now rewrite str_app_assoc).
    apply str_snoc in E. destruct E as [-> ->]. split; [reflexivity|]. now exists a.
  - exfalso. apply N. exists a, b'.
    replace (a ++ "::" ++ b' ++ String x "") with ((a ++ "::" ++ b') ++ String x "") in E
      by (now rewrite !str_app_assoc).
    now apply str_snoc in E.
Qed.

Lemma split_colons_components s : components (split_colons "" s) s.
Proof.
  assert (G : forall n s cur, String.length s <= n -> ~ has_colons cur ->
    (ends_with_colon cur -> forall r, s <> String ":" r) ->
    components (split_colons cur s) (cur ++ s)).
  { clear. induction n as [|n IH]; intros s cur L N1 N2.
    - destruct s; [|cbn in L; lia]. cbn. rewrite str_app_nil. now constructor.
    - destruct s as [|c [|d s]].
      + cbn. rewrite str_app_nil. now constructor.
      + cbn. constructor. intros H. apply has_colons_snoc in H; [|assumption].
        destruct H as [-> H]. exact (N2 H _ eq_refl).
      + rewrite split_colons_cons2. cbn [String.length] in L.
        assert (E : forall c, cur ++ String c (String d s) = (cur ++ String c "") ++ String d s)
          by (intros; now rewrite str_app_assoc).
        destruct (Ascii.eqb_spec c ":") as [->|N]; [destruct (Ascii.eqb_spec d ":") as [->|N]|].
        * cbn [andb]. apply (cp_more cur _ s); [assumption| |].
          -- intros H. exact (N2 H _ eq_refl).
          -- apply (IH s ""); [lia| |].
             ++ intros ([|] & b & H); discriminate.
             ++ intros ([|] & H); discriminate.
        * cbn [andb]. rewrite E. apply IH; [cbn; lia| |].
          -- intros H. apply has_colons_snoc in H; [|assumption]. destruct H as [_ H].
             exact (N2 H _ eq_refl).
          -- intros _ r X. injection X as -> _. congruence.
        * cbn [andb]. rewrite E. apply IH; [cbn; lia| |].
          -- intros H. apply has_colons_snoc in H; [|assumption]. destruct H as [-> _]. congruence.
          -- intros [u H]. apply str_snoc in H. destruct H as [_ ->]. congruence. }
  apply (G (String.length s) s ""); [lia| |].
  - intros ([|] & b & H); discriminate.
  - intros ([|] & H); discriminate.
Qed.

(** ** Numbers *)

Lemma parse_digits_spec s : forall acc n,
  parse_digits s acc = Some n <->
  Forall digit (list_ascii_of_string s) /\
  n = (acc * 10 ^ N.of_nat (String.length s) + decimal (list_ascii_of_string s))%N /\
  (s = "" \/ n <= u64_max)%N.
Proof.
  induction s as [|c s IH]; intros acc n; cbn [parse_digits list_ascii_of_string].
  - cbn. rewrite N.mul_1_r, N.add_0_r. split.
    + intros E. injection E as ->. auto.
    + intros (_ & -> & _). reflexivity.
  - cbv zeta. unfold digit at 1.
    assert (LEN : List.length (list_ascii_of_string s) = String.length s).
    { clear. induction s; cbn; auto. }
    destruct ((48 <=? N_of_ascii c) && (N_of_ascii c <=? 57))%N eqn:D.
    + assert (EQ : ((acc * 10 + (N_of_ascii c - 48)) * 10 ^ N.of_nat (String.length s) +
                    decimal (list_ascii_of_string s) =
                    acc * 10 ^ N.of_nat (String.length (String c s)) +
                    decimal (c :: list_ascii_of_string s))%N).
      { cbn [decimal String.length]. rewrite LEN, Nat2N.inj_succ, N.pow_succ_r'. ring. }
      assert (POS : (1 <= 10 ^ N.of_nat (String.length s))%N).
      { pose proof (N.pow_nonzero 10 (N.of_nat (String.length s))). lia. }
      destruct (_ <=? u64_max)%N eqn:M.
      * rewrite IH, EQ. split.
        -- intros (F & -> & B). split; [constructor; [unfold digit; lia|assumption]|].
           split; [reflexivity|]. right. destruct B as [->|B]; [|assumption].
           rewrite <- EQ. cbn. lia.
        -- intros (F & -> & B). inversion F; subst. split; [assumption|]. split; [reflexivity|].
           destruct B; [discriminate|auto].
      * split; [discriminate|]. intros (F & -> & [B|B]); [discriminate|]. exfalso.
        rewrite <- EQ in B. nia.
    + split; [discriminate|]. intros (F & _). inversion F; subst. unfold digit in *. lia.
Qed.

Lemma parse_usize_spec s n : parse_usize s = Some n <-> numeral s n /\ (n <= u64_max)%N.
Proof.
  assert (SL : forall l, list_ascii_of_string (string_of_list_ascii l) = l)
    by apply list_ascii_of_string_of_list_ascii.
  assert (G : forall d, d <> "" -> (parse_digits d 0 = Some n <->
     (exists l, d = string_of_list_ascii l /\ l <> [] /\ Forall digit l /\ n = decimal l) /\
     (n <= u64_max)%N)).
  { intros d ND. rewrite parse_digits_spec, N.mul_0_l, N.add_0_l. split.
    - intros (F & E & [->|B]); [congruence|]. split; [|assumption].
      exists (list_ascii_of_string d). rewrite string_of_list_ascii_of_string.
      repeat split; auto. destruct d; [congruence|discriminate].
    - intros ((l & -> & NL & F & E) & B). rewrite SL. auto. }
  unfold numeral. split.
  - unfold parse_usize. intros H.
    destruct s as [|c s]; [discriminate|].
    destruct (Ascii.eqb_spec c "+") as [->|NP].
    + cbn in H. destruct s as [|c s]; [discriminate|].
      apply G in H; [|discriminate]. destruct H as ((l & -> & NL & F & E) & B).
      split; [|assumption]. exists "+", l. rewrite <- (SL l) in *. auto.
    + assert (H' : parse_digits (String c s) 0 = Some n).
      { destruct c as [[] [] [] [] [] [] [] []]; try exact H. congruence. }
      apply G in H'; [|discriminate]. destruct H' as ((l & E0 & NL & F & E) & B).
      split; [|assumption]. exists "", l. auto.
  - intros ((sign & l & -> & SG & NL & F & E) & B).
    assert (ND : string_of_list_ascii l <> "") by (destruct l; [congruence|discriminate]).
    assert (H : parse_digits (string_of_list_ascii l) 0 = Some n) by (apply G; eauto 10).
    destruct SG as [->| ->]; unfold parse_usize; cbn [append].
    + destruct l as [|c l]; [congruence|]. cbn [string_of_list_ascii] in *.
      inversion F as [|? ? D _]; subst. unfold digit in D.
      destruct (Ascii.eqb_spec c "+") as [->|NP]; [cbn in D; lia|].
      destruct c as [[] [] [] [] [] [] [] []]; try exact H. congruence.
    + destruct (string_of_list_ascii l); [congruence|exact H].
Qed.

(** ** All options *)

Lemma maps_parsed c o given :
  parse_options c = Some o ->
  Forall2 (fun v p => key_value v (fst p) (snd p)) (cl_prefix_map c) given -> maps given o.
Proof.
  unfold parse_options, parse_prefix_map. intros H F. apply parse_prefixes in F. rewrite F in H.
  destruct (parse_output _) as [[[[? ?] ?] ?]|]; [|discriminate].
  destruct (match cl_inline_depth c with Some _ => _ | None => _ end); [|discriminate].
  destruct (parse_categories _); [|discriminate].
  destruct (for_values parse_print _ _); [|discriminate].
  destruct (for_values parse_filter _ _); [|discriminate].
  destruct (parse_sort _); [|discriminate].
  destruct (for_values parse_ignore _ _); [|discriminate].
  injection H as <-. reflexivity.
Qed.

(** The parts of parsed options. *)
Lemma parse_options_parts c o : parse_options c = Some o ->
  exists depth0 print0,
    parse_output (cl_output c) = Some (o_html o, o_http o, depth0, print0) /\
    (match cl_inline_depth c with Some s => parse_usize s | None => Some depth0 end)
      = Some (o_inline_depth o) /\
    parse_categories (cl_category c) = Some (o_category o) /\
    for_values parse_print (cl_print c) print0 = Some (o_print o) /\
    for_values parse_filter (cl_filter c) (mkFilterOpts None None [] None) = Some (o_filter o) /\
    parse_sort (cl_sort c) = Some (o_sort o) /\
    for_values parse_ignore (cl_ignore c)
      (mkIgnoreOpts false false false false false false false false false false)
      = Some (o_ignore o) /\
    parse_prefix_map (cl_prefix_map c) = Some (o_prefix_map o).
Proof.
  unfold parse_options. intros H.
  destruct (parse_output _) as [[[[html http] d0] p0]|]; [|discriminate]. exists d0, p0.
  destruct (match cl_inline_depth c with Some _ => _ | None => _ end); [|discriminate].
  destruct (parse_categories _); [|discriminate].
  destruct (for_values parse_print _ _); [|discriminate].
  destruct (for_values parse_filter _ _); [|discriminate].
  destruct (parse_sort _); [|discriminate].
  destruct (for_values parse_ignore _ _); [|discriminate].
  destruct (parse_prefix_map _); [|discriminate].
  injection H as <-. cbn. auto 10.
Qed.

Lemma parse_output_accepts v :
  (forall w, v = Some w -> In w ["text"; "html"; "http"]) <-> exists r, parse_output v = Some r.
Proof.
  destruct v as [v|]; cbn [parse_output]; [|split; [eauto|discriminate]].
  assert ((forall w, Some v = Some w -> In w ["text"; "html"; "http"]) <->
          member_str v ["text"; "html"; "http"] = true) as ->.
  { rewrite member_str_iff. split; [auto|]. intros H w E. injection E as <-. exact H. }
  unfold member_str. cbn [existsb].
  destruct (String.eqb v "text"), (String.eqb v "html"), (String.eqb v "http"); cbn [orb];
    split; eauto; try discriminate. intros [? ?]; discriminate.
Qed.
Lemma parse_sort_accepts v :
  (forall w, v = Some w -> In w ["name"; "size"]) <-> exists r, parse_sort v = Some r.
Proof.
  destruct v as [v|]; cbn [parse_sort]; [|split; [eauto|discriminate]].
  assert ((forall w, Some v = Some w -> In w ["name"; "size"]) <->
          member_str v ["name"; "size"] = true) as ->.
  { rewrite member_str_iff. split; [auto|]. intros H w E. injection E as <-. exact H. }
  unfold member_str. cbn [existsb].
  destruct (String.eqb v "name"), (String.eqb v "size"); cbn [orb];
    split; eauto; try discriminate. intros [? ?]; discriminate.
Qed.
Lemma prefix_accepts l :
  (forall v, In v l -> prefix_accepted v) <-> exists pm, parse_prefix_map l = Some pm.
Proof.
  rewrite (for_values_some parse_prefix prefix_accepted) with (a := []).
  - unfold parse_prefix_map. destruct (for_values parse_prefix l []).
    + split; eauto.
    + split; intros [? ?]; discriminate.
  - intros a v. unfold prefix_accepted, parse_prefix. split.
    + intros (k & x & K). apply split_at_eq_some in K. rewrite K. eauto.
    + intros [b E]. destruct (split_at_eq v) as [[k x]|] eqn:Q; [|discriminate].
      exists k, x. now apply split_at_eq_some.
Qed.
Lemma categories_accepts v :
  (forall vs w, v = Some vs -> In w vs -> In w category_words) <->
  exists r, parse_categories v = Some r.
Proof.
  destruct v as [v|]; cbn [parse_categories]; [|split; [eauto|discriminate]].
  rewrite <- category_accepts. split.
  - intros H w. now apply (H v).
  - intros H vs w E. injection E as <-. apply H.
Qed.

Lemma parse_options_accepts c : (exists o, parse_options c = Some o) <-> cli_accepted c.
Proof.
  unfold cli_accepted. split.
  - intros [o H]. apply parse_options_parts in H.
    destruct H as (d0 & p0 & H1 & H2 & H3 & H4 & H5 & H6 & H7 & H8).
    split; [apply parse_output_accepts; eauto|].
    split. { intros v E. rewrite E in H2. apply parse_usize_spec in H2. eauto. }
    split; [apply categories_accepts; eauto|].
    split; [apply (print_accepts _ p0); eauto|].
    split; [eapply filter_accepts; eauto|].
    split; [apply parse_sort_accepts; eauto|].
    split; [eapply ignore_accepts; eauto|].
    apply prefix_accepts; eauto.
  - intros (H1 & H2 & H3 & H4 & H5 & H6 & H7 & H8).
    apply parse_output_accepts in H1. destruct H1 as [[[[html http] d0] p0] H1].
    apply categories_accepts in H3. destruct H3 as [cat H3].
    apply (print_accepts _ p0) in H4. destruct H4 as [pr H4].
    apply (filter_accepts _ (mkFilterOpts None None [] None)) in H5. destruct H5 as [fi H5].
    apply parse_sort_accepts in H6. destruct H6 as [so H6].
    apply (ignore_accepts _ (mkIgnoreOpts false false false false false false false false false false))
      in H7. destruct H7 as [ig H7].
    apply prefix_accepts in H8. destruct H8 as [pm H8].
    unfold parse_options. rewrite H1.
    assert (exists d, (match cl_inline_depth c with Some s => parse_usize s | None => Some d0 end)
                      = Some d) as [d ->].
    { destruct (cl_inline_depth c) as [s|]; [|eauto].
      destruct (H2 s eq_refl) as (n & H). exists n. now apply parse_usize_spec. }
    rewrite H3, H4, H5, H6, H7, H8. eauto.
Qed.
