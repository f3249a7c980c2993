(** What a file says about its entries, from the values of their attributes (properties C88 to C91). *)
From Coq Require Import List Arith NArith ZArith Bool String Lia.
From Verif Require Import Base BaseProofs RangeModel NamespaceModel TypeModel FileModel LocationModel ReadModel ReadSpec ReadProofs ItemModel
  EntryModel DieModel DieSpec DieProofs MemberSpec WholeModel WholeSpec WholeProofs PropertiesWhole ViewSpec PropertiesView RawModel RawSpec RawProofs.
From Verif Require Import DieModel DieSpec.
Import ListNotations.
Local Open Scope N_scope.

(** All attributes but those with one of some numbers give nothing that is looked for. *)
Local Ltac table :=
  unfold attribute_table;
  let w := fresh in
  repeat (apply Forall_cons; [first [right; intros w; reflexivity
    |right; intros w; destruct w as [ | | [] | | | | | | | | | | | | | | | | | | ]; reflexivity
    |left; cbn; tauto]|]); apply Forall_nil.

(** ** C88: entries and references *)

(** C88: if units do not overlap and entries are at different places, no two entries of the file have the
    same offset. *)
Theorem C88_well_formed : forall rf ob, raw_well_formed rf -> read_file rf = Some ob -> well_formed ob.
Proof. intros. now apply (read_well_formed rf). Qed.
Print Assumptions C88_well_formed.

(** C88: a look-up by offset finds the entry at that offset, in the unit that it is in, and nothing else. *)
Theorem C88_tree : forall rf off u d, raw_well_formed rf ->
  (raw_tree rf off = Some (u, d) <->
   In u (rf_units rf) /\ In d (raw_entries (ru_root u)) /\ off = ud_begin (ru_place u) + rd_offset d).
Proof. intros. now apply raw_tree_iff. Qed.
Print Assumptions C88_tree.

(** C88: a reference leads to the entry that it is to, be it given by a place in the unit or in the section. *)
Theorem C88_references : forall rf ob u v x d, raw_well_formed rf -> read_file rf = Some ob -> In u (rf_units rf) ->
  refers rf u v x d -> In d (raw_below x) ->
  exists off, info_offset u v = Some off /\ raw_tree rf off = Some (x, d) /\
    entry_in (ob_units ob) off = Some (read_unit rf x, read_die rf x d).
Proof.
  intros rf ob u v x d WF RD I R B. exists (ud_begin (ru_place x) + rd_offset d).
  assert (J : In x (rf_units rf)) by (inversion R; subst; assumption).
  split; [inversion R; subst; reflexivity|]. split; [|now apply entry_read].
  apply raw_tree_iff; auto. split; [exact J|]. split; [now apply below_entry|reflexivity].
Qed.
Print Assumptions C88_references.

Lemma type_pick rf u b : ~ is_type_reference b -> match read_attr rf u b with AType v => v | _ => None end = None.
Proof.
  intros N. destruct (N.eq_dec (fst b) 0x49) as [E|E].
  - destruct b as (c, v). cbn [fst] in E. subst c. rewrite (read_attr_at rf u 0x49 (fun v => AType (info_offset u v)) v) by (cbn; tauto).
    destruct v; try reflexivity; destruct N; (split; [now left|]); eexists; [left|right]; reflexivity.
  - apply (read_attr_other rf u (fun a => match a with AType v => v | _ => None end) [0x49]).
    + table.
    + reflexivity.
    + intros [X|[]]. now apply E.
Qed.

(** C88: the type of an entry is the one that its last reference to a type leads to. *)
Theorem C88_type : forall rf ob u d a x e, raw_well_formed rf -> read_file rf = Some ob -> In u (rf_units rf) -> In d (raw_below u) ->
  last_such is_type_reference (rd_attrs d) a -> refers rf u (snd a) x e -> In e (raw_below x) ->
  entry_in (ob_units ob) (given_type (die_attrs (read_die rf u d))) = Some (read_unit rf x, read_die rf x e).
Proof.
  intros rf ob u d a x e WF RD I J L R B.
  destruct (C88_references rf ob u (snd a) x e WF RD I R B) as (off & E & _ & F).
  rewrite read_attrs. unfold given_type. rewrite (given_last _ rf u is_type_reference (rd_attrs d) a off); [exact F|exact L| |apply type_pick].
  destruct L as (_ & _ & _ & ([C|[]] & _) & _). destruct a as (c, v). cbn [fst snd] in *. subst c.
  rewrite (read_attr_at rf u 0x49 (fun v => AType (info_offset u v)) v) by (cbn; tauto). exact E.
Qed.
Print Assumptions C88_type.

(** C88: an entry without such a reference has no type. *)
Theorem C88_no_type : forall rf u d, no_such is_type_reference (rd_attrs d) ->
  given_type (die_attrs (read_die rf u d)) = type_offset_none.
Proof. intros rf u d H. rewrite read_attrs. unfold given_type. apply (given_none _ rf u is_type_reference); [exact H|apply type_pick]. Qed.
Print Assumptions C88_no_type.

(** ** C89: names, sources and addresses *)

Lemma string_maybe rf u v : says_maybe rf u v (attr_string rf u v).
Proof.
  destruct (attr_string rf u v) as [s|] eqn:E; [constructor; now apply attr_string_iff|].
  constructor. now apply attr_string_none.
Qed.

Lemma named_given rf u P attrs (pick : attr -> option (option string)) :
  (forall a, P a \/ ~ P a) -> (forall a, P a -> pick (read_attr rf u a) = Some (attr_string rf u (snd a))) ->
  (forall a, ~ P a -> pick (read_attr rf u a) = None) ->
  named rf u P attrs (given pick (map (read_attr rf u) attrs) None).
Proof.
  intros D A B. destruct (last_such_dec P D attrs) as [(a & L)|N].
  - assert (Pa : P a) by (destruct L as (? & ? & _ & Pa & _); exact Pa).
    rewrite (given_last pick rf u P attrs a _ None L (A a Pa) B).
    destruct (string_maybe rf u (snd a)) as [s S|S]; [now apply (nmd_string _ _ _ _ a)|now apply (nmd_other _ _ _ _ a)].
  - rewrite (given_none pick rf u P attrs None N B). now constructor.
Qed.

(** C89: the name of an entry is the string that its last [DW_AT_name] stands for, in whichever of the four forms; its
    symbol name is that of its last linkage name. *)
Theorem C89_name : forall rf u d,
  named rf u is_name (rd_attrs d) (given_name (die_attrs (read_die rf u d))) /\
  named rf u is_linkage_name (rd_attrs d) (given_linkage_name (die_attrs (read_die rf u d))).
Proof.
  intros rf u d. rewrite read_attrs. split; apply named_given.
  - intros a. unfold is_name. destruct (N.eq_dec (fst a) 0x03); auto.
  - intros (c, v) E. unfold is_name in E. cbn [fst] in E. subst c.
    now rewrite (read_attr_at rf u 0x03 (fun v => AName (attr_string rf u v)) v) by (cbn; tauto).
  - intros a N. apply (read_attr_other rf u (fun a => match a with AName v => Some v | _ => None end) [0x03]); [table|reflexivity|].
    intros [X|[]]. now apply N.
  - intros a. unfold is_linkage_name. destruct (N.eq_dec (fst a) 0x6e), (N.eq_dec (fst a) 0x2007); tauto.
  - intros (c, v) [E|E]; cbn [fst] in E; subst c.
    + now rewrite (read_attr_at rf u 0x6e (fun v => ALinkageName (attr_string rf u v)) v) by (cbn; tauto).
    + now rewrite (read_attr_at rf u 0x2007 (fun v => ALinkageName (attr_string rf u v)) v) by (cbn; tauto).
  - intros a N. apply (read_attr_other rf u (fun a => match a with ALinkageName v => Some v | _ => None end) [0x6e; 0x2007]); [table|reflexivity|].
    intros [X|[X|[]]]; apply N; [left|right]; now symmetry.
Qed.
Print Assumptions C89_name.

Lemma source_file_path u rf v path : is_file u (0x3a, v) path ->
  exists dir, source_file rf u v = Some (attr_string rf u path, dir) /\
    (forall x, is_file_in u (0x3a, v) x -> dir = Some (attr_string rf u x)) /\
    ((forall x, ~ is_file_in u (0x3a, v) x) -> dir = None).
Proof.
  intros (_ & n & l & d & E & NZ & EL & F). cbn [snd] in E. subst v. cbn [source_file].
  destruct (N.eqb_spec n 0); [contradiction|]. rewrite EL.
  pose proof F as F'. apply (line_file_iff l n path d NZ) in F'. rewrite F'.
  exists (option_map (attr_string rf u) (line_directory l d)). split; [reflexivity|]. split.
  - intros x (_ & n' & l' & p' & d' & [= <-] & _ & EL' & F2 & D). rewrite EL in EL'. injection EL' as <-.
    apply (line_file_iff l n p' d' NZ) in F2. rewrite F' in F2. injection F2 as <- <-. apply line_directory_iff in D. now rewrite D.
  - intros H. destruct (line_directory l d) as [x|] eqn:D; [|reflexivity]. exfalso. apply (H x).
    apply line_directory_iff in D. split; [reflexivity|]. now exists n, l, path, d.
Qed.
Lemma source_file_none u rf v : (forall path, ~ is_file u (0x3a, v) path) -> source_file rf u v = None.
Proof.
  intros H. destruct v; try reflexivity. cbn [source_file]. destruct (N.eqb_spec n 0) as [->|NZ]; [reflexivity|].
  destruct (ru_lines u) as [l|] eqn:EL; [|reflexivity]. destruct (line_file l n) as [(p, d)|] eqn:F; [|reflexivity].
  exfalso. apply (H p). split; [reflexivity|]. exists n, l, d. apply (line_file_iff l n p d NZ) in F. auto.
Qed.
Lemma file_of_in u a x : is_file_in u a x -> exists path, is_file u a path.
Proof. intros (E & n & l & p & d & A & B & C & D & _). exists p. split; [exact E|]. now exists n, l, d. Qed.

(** C89: the file and directory where something is declared are those that the line table of the unit has for the last
    [DW_AT_decl_file] that is a file of the table. *)
Theorem C89_file : forall rf u d a path dir,
  last_such (fun a => exists path, is_file u a path) (rd_attrs d) a -> is_file u a path -> is_file_in u a dir ->
  says_maybe rf u path (so_file (given_source (die_attrs (read_die rf u d)))) /\
  says_maybe rf u dir (so_directory (given_source (die_attrs (read_die rf u d)))).
Proof.
  intros rf u d (c, v) path dir L F FI. assert (c = 0x3a) as -> by exact (proj1 F).
  destruct (source_file_path u rf v path F) as (dr & S & D1 & _). specialize (D1 dir FI). subst dr.
  rewrite read_attrs. cbn [given_source so_file so_directory].
  assert (OT : forall A (g : option (option string * option (option string)) -> option A) b,
             g None = None -> ~ (exists path, is_file u b path) ->
             match read_attr rf u b with ADeclFile x => g x | _ => None end = None).
  { intros A g (c, w) G N. destruct (N.eq_dec c 0x3a) as [->|NE].
    - rewrite (read_attr_at rf u 0x3a (fun v => ADeclFile (source_file rf u v)) w) by (cbn; tauto).
      rewrite source_file_none; [exact G|]. intros p H. apply N. now exists p.
    - apply (read_attr_other rf u (fun a => match a with ADeclFile x => g x | _ => None end) [0x3a]); [table|reflexivity|].
      intros [X|[]]. now apply NE. }
  pose proof (read_attr_at rf u 0x3a (fun v => ADeclFile (source_file rf u v)) v ltac:(cbn; tauto)) as RA. cbn beta in RA. rewrite S in RA.
  split.
  - rewrite (given_last _ rf u _ (rd_attrs d) (0x3a, v) (attr_string rf u path) None L).
    + apply string_maybe.
    + now rewrite RA.
    + intros b N. specialize (OT _ (fun x => match x with Some (file, _) => Some file | None => None end) b eq_refl N).
      destruct (read_attr rf u b) as [| | | | | | | | | | | | | |[(?, ?)|]| | | | | | | | | | | | | | | | | | | | | | | |]; exact OT || exact eq_refl.
  - rewrite (given_last _ rf u _ (rd_attrs d) (0x3a, v) (attr_string rf u dir) None L).
    + apply string_maybe.
    + now rewrite RA.
    + intros b N. specialize (OT _ (fun x => match x with Some (_, Some dir) => Some dir | _ => None end) b eq_refl N).
      destruct (read_attr rf u b) as [| | | | | | | | | | | | | |[(?, [?|])|]| | | | | | | | | | | | | | | | | | | | | | | |]; exact OT || exact eq_refl.
Qed.
Print Assumptions C89_file.

(** C89: without such an attribute, there is no file and no directory. *)
Theorem C89_no_file : forall rf u d, no_such (fun a => exists path, is_file u a path) (rd_attrs d) ->
  so_file (given_source (die_attrs (read_die rf u d))) = None /\
  so_directory (given_source (die_attrs (read_die rf u d))) = None.
Proof.
  intros rf u d H. rewrite read_attrs. cbn [given_source so_file so_directory].
  assert (OT : forall b, ~ (exists path, is_file u b path) -> forall x, read_attr rf u b = ADeclFile x -> x = None).
  { intros (c, w) N x. destruct (N.eq_dec c 0x3a) as [->|NE].
    - rewrite (read_attr_at rf u 0x3a (fun v => ADeclFile (source_file rf u v)) w) by (cbn; tauto). intros [= <-].
      apply source_file_none. intros p F. apply N. now exists p.
    - assert (Z : (match read_attr rf u (c, w) with ADeclFile x => Some x | _ => None end) = None).
      { apply (read_attr_other rf u (fun a => match a with ADeclFile x => Some x | _ => None end) [0x3a]); [table|reflexivity|].
        intros [X|[]]. now apply NE. }
      intros E. rewrite E in Z. discriminate. }
  split; apply (given_none _ rf u _ _ _ H); intros b N; specialize (OT b N); destruct (read_attr rf u b); try reflexivity;
    rewrite (OT _ eq_refl); reflexivity.
Qed.
Print Assumptions C89_no_file.

Lemma position_given rf u code f attrs (pick : attr -> option N) :
  In (code, f) (attribute_table rf u) -> (forall v, pick (f v) = udata_only v) ->
  (forall b, fst b <> code -> pick (read_attr rf u b) = None) ->
  (forall a, last_such (is_position code) attrs a -> snd a = RwConst (UnsignedData (given_position pick (map (read_attr rf u) attrs)))) /\
  (no_such (is_position code) attrs -> given_position pick (map (read_attr rf u) attrs) = 0).
Proof.
  intros I P O. unfold given_position.
  assert (OT : forall b, ~ is_position code b ->
    match pick (read_attr rf u b) with Some n => if (0 <? n) && (n <? 4294967296) then Some n else None | None => None end = None).
  { intros (c, v) N. destruct (N.eq_dec c code) as [->|NE]; [|now rewrite O].
    rewrite (read_attr_at rf u code f v I), P. destruct v; try reflexivity. destruct c; try reflexivity. cbn [udata_only].
    destruct (0 <? n) eqn:A, (n <? 4294967296) eqn:B; try reflexivity. destruct N. split; [reflexivity|].
    exists n. apply N.ltb_lt in A, B. split; [|reflexivity]. change (2 ^ 32) with 4294967296. split; assumption. }
  split.
  - intros (c, v) L. assert (H : is_position code (c, v)) by (destruct L as (? & ? & _ & H & _); exact H).
    destruct H as (E & n & (A & B) & V). cbn [fst snd] in *. subst c v. change (2 ^ 32) with 4294967296 in B. apply N.ltb_lt in A, B.
    rewrite (given_last _ rf u (is_position code) attrs _ n 0 L); [reflexivity| |exact OT].
    rewrite (read_attr_at rf u code f _ I), P. cbn [udata_only]. now rewrite A, B.
  - intros N. apply (given_none _ rf u (is_position code)); assumption.
Qed.

(** C89: the line and the column where something is declared. *)
Theorem C89_position : forall rf u d code n,
  code = 0x3b /\ n = so_line (given_source (die_attrs (read_die rf u d))) \/
  code = 0x39 /\ n = so_column (given_source (die_attrs (read_die rf u d))) ->
  (forall a, last_such (is_position code) (rd_attrs d) a -> snd a = RwConst (UnsignedData n)) /\
  (no_such (is_position code) (rd_attrs d) -> n = 0).
Proof.
  intros rf u d code n [(-> & ->)|(-> & ->)]; rewrite read_attrs; cbn [given_source so_line so_column].
  - apply (position_given rf u 0x3b (fun v => ADeclLine (udata_only v))); [cbn; tauto|reflexivity|].
    intros b N. apply (read_attr_other rf u (fun a => match a with ADeclLine v => v | _ => None end) [0x3b]); [table|reflexivity|].
    intros [X|[]]. now apply N.
  - apply (position_given rf u 0x39 (fun v => ADeclColumn (udata_only v))); [cbn; tauto|reflexivity|].
    intros b N. apply (read_attr_other rf u (fun a => match a with ADeclColumn v => v | _ => None end) [0x39]); [table|reflexivity|].
    intros [X|[]]. now apply N.
Qed.
Print Assumptions C89_position.

(** C89: the start address is the one that the last [DW_AT_low_pc] stands for; an index is one into the table of the unit. *)
Theorem C89_start : forall rf u d base,
  (forall a n, last_such (is_start_address u base) (rd_attrs d) a -> addresses u (snd a) n ->
     given_low_pc base (die_attrs (read_die rf u d)) = Some n) /\
  (no_such (is_start_address u base) (rd_attrs d) -> given_low_pc base (die_attrs (read_die rf u d)) = None).
Proof.
  intros rf u d base. rewrite read_attrs. unfold given_low_pc.
  match goal with |- context [given ?p _ None] => set (pick := p) end.
  assert (PN : forall c, pick (ALowPc c) = match c with Some n => if n =? 0 then match base with Some 0 => Some (Some 0) | _ => None end else Some (Some n) | None => None end) by reflexivity.
  assert (OT : forall b, ~ is_start_address u base b -> pick (read_attr rf u b) = None).
  { intros (c, v) N. destruct (N.eq_dec c 0x11) as [->|NE].
    - rewrite (read_attr_at rf u 0x11 (fun v => ALowPc (attr_address u v)) v) by (cbn; tauto). rewrite PN.
      destruct (attr_address u v) as [n|] eqn:E; [|reflexivity]. apply attr_address_iff in E.
      destruct (N.eqb_spec n 0) as [->|NZ].
      + destruct base as [[|p]|]; try reflexivity. destruct N. split; [reflexivity|]. exists 0. auto.
      + destruct N. split; [reflexivity|]. exists n. split; [exact E|]. intros X. contradiction.
    - apply (read_attr_other rf u pick [0x11]); [subst pick; table|reflexivity|]. intros [X|[]]. now apply NE. }
  split.
  - intros (c, v) n L A. assert (H : is_start_address u base (c, v)) by (destruct L as (? & ? & _ & H & _); exact H).
    destruct H as (E & m & B & Z). cbn [fst snd] in *. subst c. apply attr_address_iff in A, B. rewrite A in B. injection B as <-.
    apply (given_last pick rf u _ (rd_attrs d) _ (Some n) None L); [|exact OT].
    rewrite (read_attr_at rf u 0x11 (fun v => ALowPc (attr_address u v)) v) by (cbn; tauto). rewrite PN, A.
    destruct (N.eqb_spec n 0) as [->|NZ]; [|reflexivity]. now rewrite (Z eq_refl).
  - intros N. apply (given_none pick rf u _ _ _ N OT).
Qed.
Print Assumptions C89_start.

(** C89: [DW_AT_high_pc] is an end address unless it is an unsigned constant, and then a length. *)
Theorem C89_end : forall rf u d,
  (forall a, last_such is_end_address (rd_attrs d) a ->
     forall n, given_high_pc (die_attrs (read_die rf u d)) = Some n <-> addresses u (snd a) n) /\
  (no_such is_end_address (rd_attrs d) -> given_high_pc (die_attrs (read_die rf u d)) = None) /\
  (forall a, last_such is_length (rd_attrs d) a ->
     exists n, given_length (die_attrs (read_die rf u d)) = Some n /\ snd a = RwConst (UnsignedData n)) /\
  (no_such is_length (rd_attrs d) -> given_length (die_attrs (read_die rf u d)) = None).
Proof.
  intros rf u d. rewrite read_attrs. unfold given_high_pc, given_length.
  assert (RA : forall v, read_attr rf u (0x12, v) = raw_high_pc u v) by (intros v; apply read_attr_at; cbn; tauto).
  match goal with |- context [@given (option N) ?p (map _ _) None = Some _ <-> _] => set (pick := p) end.
  match goal with |- context [exists n, @given (option N) ?p (map _ _) None = Some n /\ _] => set (pick2 := p) end.
  assert (O1 : forall b, ~ is_end_address b -> pick (read_attr rf u b) = None).
  { intros (c, v) N. destruct (N.eq_dec c 0x12) as [->|NE].
    - rewrite RA. destruct v as [ | | [] | | | | | | | | | | | | | | | | | | ]; try reflexivity; destruct N; (split; [reflexivity|discriminate]).
    - apply (read_attr_other rf u pick [0x12]); [subst pick; table|reflexivity|]. intros [X|[]]. now apply NE. }
  assert (O2 : forall b, ~ is_length b -> pick2 (read_attr rf u b) = None).
  { intros (c, v) N. destruct (N.eq_dec c 0x12) as [->|NE].
    - rewrite RA. destruct v as [ | | [] | | | | | | | | | | | | | | | | | | ]; try reflexivity. cbn [raw_high_pc].
      subst pick2. cbn beta iota. destruct (N.eqb_spec n 0); [reflexivity|]. destruct N. split; [reflexivity|]. now exists n.
    - apply (read_attr_other rf u pick2 [0x12]); [subst pick2; table|reflexivity|]. intros [X|[]]. now apply NE. }
  split; [|split; [|split]].
  - intros (c, v) L n. assert (H : is_end_address (c, v)) by (destruct L as (? & ? & _ & H & _); exact H).
    destruct H as (E & H). cbn [fst snd] in *. subst c.
    rewrite (given_last pick rf u _ (rd_attrs d) _ (attr_address u v) None L); [apply attr_address_iff| |exact O1].
    rewrite RA. destruct v as [ | | [] | | | | | | | | | | | | | | | | | | ]; try reflexivity. now destruct (H n0).
  - intros N. apply (given_none pick rf u _ _ _ N O1).
  - intros (c, v) L. assert (H : is_length (c, v)) by (destruct L as (? & ? & _ & H & _); exact H).
    destruct H as (E & n & NZ & V). cbn [fst snd] in *. subst c v. exists n. split; [|reflexivity].
    apply (given_last pick2 rf u _ (rd_attrs d) _ (Some n) None L); [|exact O2]. rewrite RA. cbn [raw_high_pc]. subst pick2. cbn beta iota.
    now destruct (N.eqb_spec n 0).
  - intros N. apply (given_none pick2 rf u _ _ _ N O2).
Qed.
Print Assumptions C89_end.

(** ** C90: base types and enumerations *)

(** C90: the encoding and the byte order of a type are those of its entry, by the last attribute that has one. *)
Theorem C90_encoding : forall rf ob u d, raw_well_formed rf -> read_file rf = Some ob -> In u (rf_units rf) ->
  In d (raw_entries (ru_root u)) ->
  (forall a c, last_such is_encoding (rd_attrs d) a -> snd a = RwEncoding c ->
     ob_encoding ob (ud_begin (ru_place u) + rd_offset d) = encoding_of_code c) /\
  (no_such is_encoding (rd_attrs d) -> ob_encoding ob (ud_begin (ru_place u) + rd_offset d) = EncOther).
Proof.
  intros rf ob u d WF RD I J. assert (T : raw_tree rf (ud_begin (ru_place u) + rd_offset d) = Some (u, d)) by (apply raw_tree_iff; auto).
  assert (E : ob_encoding ob (ud_begin (ru_place u) + rd_offset d) = raw_encoding (rd_attrs d)).
  { unfold read_file in RD. destruct (forallb _ _); [|discriminate]. injection RD as <-. cbn [ob_encoding]. unfold at_entry. now rewrite T. }
  rewrite E. unfold raw_encoding.
  assert (OT : forall z b, ~ is_encoding b -> (if fst b =? 0x3e then match snd b with RwEncoding c => encoding_of_code c | _ => z end else z) = z).
  { intros z b N. destruct (N.eqb_spec (fst b) 0x3e) as [X|X]; [|reflexivity]. destruct b as (c, v). cbn [fst snd] in *.
    destruct v; try reflexivity. destruct N. split; [exact X|]. eexists. reflexivity. }
  split.
  - intros a c L V. apply (fold_last _ is_encoding (rd_attrs d) a); [exact L| |exact OT].
    intros z. destruct L as (_ & _ & _ & (X & _) & _). now rewrite X, V.
  - intros N. apply (fold_none _ is_encoding); assumption.
Qed.
Print Assumptions C90_encoding.

Theorem C90_endianity : forall rf ob u d, raw_well_formed rf -> read_file rf = Some ob -> In u (rf_units rf) ->
  In d (raw_entries (ru_root u)) ->
  (forall a c, last_such is_endianity (rd_attrs d) a -> snd a = RwEndianity c ->
     (ob_endianity ob (ud_begin (ru_place u) + rd_offset d) = EndBig <-> c = 1) /\
     (ob_endianity ob (ud_begin (ru_place u) + rd_offset d) = EndLittle <-> c = 2)) /\
  (no_such is_endianity (rd_attrs d) -> ob_endianity ob (ud_begin (ru_place u) + rd_offset d) = EndDefault).
Proof.
  intros rf ob u d WF RD I J. assert (T : raw_tree rf (ud_begin (ru_place u) + rd_offset d) = Some (u, d)) by (apply raw_tree_iff; auto).
  assert (E : ob_endianity ob (ud_begin (ru_place u) + rd_offset d) = raw_endianity (rd_attrs d)).
  { unfold read_file in RD. destruct (forallb _ _); [|discriminate]. injection RD as <-. cbn [ob_endianity]. unfold at_entry. now rewrite T. }
  rewrite E. unfold raw_endianity.
  assert (OT : forall z b, ~ is_endianity b -> (if fst b =? 0x65 then match snd b with RwEndianity c => endianity_of_code c | _ => z end else z) = z).
  { intros z b N. destruct (N.eqb_spec (fst b) 0x65) as [X|X]; [|reflexivity]. destruct b as (c, v). cbn [fst snd] in *.
    destruct v; try reflexivity. destruct N. split; [exact X|]. eexists. reflexivity. }
  split.
  - intros a c L V. rewrite (fold_last _ is_endianity (rd_attrs d) a (endianity_of_code c)); [|exact L| |exact OT].
    + unfold endianity_of_code. destruct (N.eqb_spec c 1), (N.eqb_spec c 2); split; split; intros X; try discriminate X; try reflexivity; try assumption; try contradiction; congruence.
    + intros z. destruct L as (_ & _ & _ & (X & _) & _). now rewrite X, V.
  - intros N. apply (fold_none _ is_endianity); assumption.
Qed.
Print Assumptions C90_endianity.

Lemma map_split {A B} (f : A -> B) l before y after : map f l = before ++ y :: after ->
  exists b x a, l = b ++ x :: a /\ before = map f b /\ y = f x /\ after = map f a.
Proof.
  revert before. induction l as [|x l IH]; intros before E; [destruct before; discriminate|].
  destruct before as [|z before]; cbn [map app] in E.
  - injection E as <- <-. exists [], x, l. auto.
  - injection E as <- E. destruct (IH _ E) as (b & w & a & -> & -> & -> & ->). exists (x :: b), w, a. auto.
Qed.

Lemma enumerator_reads_of rf u unsigned d e :
  enumerator_of unsigned (map (read_enumerator_attr rf u) (rd_attrs d)) e -> enumerator_reads rf u unsigned d e.
Proof.
  intros [A B C D].
  assert (NM : forall a, is_name a -> read_enumerator_attr rf u a = EnName (attr_string rf u (snd a))) by (intros a X; unfold read_enumerator_attr; now rewrite X).
  assert (NN : forall a x, read_enumerator_attr rf u a = EnName x -> is_name a).
  { intros a x. unfold read_enumerator_attr, is_name. destruct (N.eqb_spec (fst a) 0x03); [auto|]. destruct (fst a =? 0x1c); discriminate. }
  assert (CN : forall a, fst a = 0x1c -> read_enumerator_attr rf u a = EnConst match snd a with RwConst c => c | _ => NoConst end) by (intros a X; unfold read_enumerator_attr; now rewrite X).
  assert (CC : forall a c v, read_enumerator_attr rf u a = EnConst c -> const_means unsigned c v -> fst a = 0x1c /\ snd a = RwConst c).
  { intros a c v. unfold read_enumerator_attr. destruct (fst a =? 0x03); [discriminate|]. destruct (N.eqb_spec (fst a) 0x1c); [|discriminate].
    intros [= <-] M. split; [assumption|]. destruct (snd a); try (inversion M; fail). reflexivity. }
  constructor.
  - destruct (last_such_dec is_name (fun a => match N.eq_dec (fst a) 0x03 with left E => or_introl E | right E => or_intror E end) (rd_attrs d)) as [(a & L)|N].
    + pose proof L as (before & after & E & Pa & N). rewrite (A (map (read_enumerator_attr rf u) before) (attr_string rf u (snd a)) (map (read_enumerator_attr rf u) after)).
      * destruct (string_maybe rf u (snd a)) as [s S|S]; [now apply (nmd_string _ _ _ _ a)|now apply (nmd_other _ _ _ _ a)].
      * rewrite E, map_app. cbn [map]. now rewrite NM.
      * intros x I. apply in_map_iff in I. destruct I as (b & X & I). apply NN in X. exact (N b I X).
    + rewrite B; [now constructor|]. intros x I. apply in_map_iff in I. destruct I as (b & X & I). apply NN in X. exact (N b I X).
  - intros a c v (before & after & E & (F & _) & N) V M. apply (C (map (read_enumerator_attr rf u) before) c (map (read_enumerator_attr rf u) after) v).
    + rewrite E, map_app. cbn [map]. now rewrite CN, V.
    + exact M.
    + intros c' v' I M'. apply in_map_iff in I. destruct I as (b & X & I). destruct (CC b c' v' X M') as (Y & Z). apply (N b I).
      split; [exact Y|]. now exists c', v'.
  - intros N. apply D. intros c v I M. apply in_map_iff in I. destruct I as (b & X & I). destruct (CC b c v X M) as (Y & Z). apply (N b I).
    split; [exact Y|]. now exists c, v.
Qed.

(** C90: the enumerators that are shown for an enumeration are those of its entry, in order, with names and constants as in
    their entries; constants have no sign just if the type under the enumeration has none. *)
Theorem C90_enumerators : forall choice rf ob u d t x, raw_well_formed rf -> read_file rf = Some ob -> In u (rf_units rf) ->
  In d (raw_entries (ru_root u)) -> t_offset t = ud_begin (ru_place u) + rd_offset d -> t_kind t = TEnum x ->
  (forall e a c, In e (rd_children d) -> In a (rd_attrs e) -> snd a = RwConst c -> const_sane c) ->
  exists unsigned : bool,
    (unsigned = true <-> exists s b y e a c, from_offset (type_at ob) (e_ty x) = Some s /\ t_kind s = TBase b /\
       In y (rf_units rf) /\ In e (raw_entries (ru_root y)) /\ t_offset s = ud_begin (ru_place y) + rd_offset e /\
       last_such is_encoding (rd_attrs e) a /\ snd a = RwEncoding c /\ In c [1; 2; 7; 8]) /\
    Forall2 (enumerator_reads rf u unsigned) (enumerator_entries d) (vw_enumerators (file_view choice ob) t).
Proof.
  intros choice rf ob u d t x WF RD I J O K S.
  assert (T : forall u d, In u (rf_units rf) -> In d (raw_entries (ru_root u)) -> raw_tree rf (ud_begin (ru_place u) + rd_offset d) = Some (u, d)) by (intros; apply raw_tree_iff; auto).
  assert (EN : ob_enumerators ob (t_offset t) = read_enumerators rf u d).
  { unfold read_file in RD. destruct (forallb _ _); [|discriminate]. injection RD as <-. cbn [ob_enumerators]. unfold at_entry. now rewrite O, T. }
  pose (code := fun off => match raw_tree rf off with
    | Some (_, e) => fold_left (fun z a => if fst a =? 0x3e then match snd a with RwEncoding c => c | _ => z end else z) (rd_attrs e) 0
    | None => 0 end).
  assert (C : forall off, ob_encoding ob off = encoding_of_code (code off)).
  { intros off. unfold read_file in RD. destruct (forallb _ _); [|discriminate]. injection RD as <-. cbn [ob_encoding]. unfold at_entry, code.
    destruct (raw_tree rf off) as [(y, e)|]; [|reflexivity]. unfold raw_encoding. change EncOther with (encoding_of_code 0).
    generalize 0 as z. induction (rd_attrs e) as [|a l IH]; intros z; [reflexivity|]. cbn [fold_left]. rewrite <- IH. f_equal.
    destruct (fst a =? 0x3e); [|reflexivity]. now destruct (snd a). }
  destruct (C81_enumerators choice ob code t x C K) as (un & U & R).
  { intros attrs c Ia Ic. rewrite EN in Ia. unfold read_enumerators in Ia. apply in_map_iff in Ia. destruct Ia as (e & X & Ie).
    destruct (rd_tag e =? 0x28); [|discriminate]. injection X as <-. apply in_map_iff in Ic. destruct Ic as (a & Y & Ia).
    unfold read_enumerator_attr in Y. destruct (fst a =? 0x03); [discriminate|]. destruct (fst a =? 0x1c); [|discriminate]. injection Y as <-.
    destruct (snd a) as [ | |cf| | | | | | | | | | | | | | | | | | ] eqn:V; try exact Logic.I. now apply (S e a cf). }
  exists un. split.
  - rewrite U. split.
    + intros (s & b & F & B & H). unfold code in H. destruct (raw_tree rf (t_offset s)) as [(y, e)|] eqn:TR; [|cbn in H; intuition discriminate].
      apply raw_tree_iff in TR; [|exact WF]. destruct TR as (Iy & Ie & OE).
      assert (D : forall a, is_encoding a \/ ~ is_encoding a).
      { intros (c, v). destruct (N.eq_dec c 0x3e) as [->|NE]; [|right; intros (X & _); contradiction].
        destruct v; try (right; intros (_ & cx & X); discriminate X). left. split; [reflexivity|]. eexists. reflexivity. }
      destruct (last_such_dec is_encoding D (rd_attrs e)) as [(a & L)|N].
      * assert (PA : is_encoding a) by (destruct L as (? & ? & _ & PA & _); exact PA). destruct PA as (FA & c & V).
        exists s, b, y, e, a, c. repeat (split; [assumption|]).
        rewrite (fold_last _ is_encoding (rd_attrs e) a c 0 L) in H; [exact H|intros z; now rewrite FA, V|].
        intros z b' N. destruct (N.eqb_spec (fst b') 0x3e) as [X|X]; [|reflexivity]. destruct b' as (cc, v). cbn [fst snd] in *.
        destruct v; try reflexivity. destruct N. split; [exact X|]. eexists. reflexivity.
      * exfalso. rewrite (fold_none _ is_encoding (rd_attrs e) 0 N) in H; [cbn in H; intuition discriminate|].
        intros z b' N'. destruct (N.eqb_spec (fst b') 0x3e) as [X|X]; [|reflexivity]. destruct b' as (cc, v). cbn [fst snd] in *.
        destruct v; try reflexivity. destruct N'. split; [exact X|]. eexists. reflexivity.
    + intros (s & b & y & e & a & c & F & B & Iy & Ie & OE & L & V & H). exists s, b. split; [exact F|]. split; [exact B|].
      unfold code. rewrite OE, T by assumption. rewrite (fold_last _ is_encoding (rd_attrs e) a c 0 L); [exact H| |].
      * intros z. destruct L as (_ & _ & _ & (X & _) & _). now rewrite X, V.
      * intros z b' N. destruct (N.eqb_spec (fst b') 0x3e) as [X|X]; [|reflexivity]. destruct b' as (cc, v). cbn [fst snd] in *.
        destruct v; try reflexivity. destruct N. split; [exact X|]. eexists. reflexivity.
  - rewrite EN in R. unfold read_enumerators in R. unfold enumerator_entries.
    revert R. generalize (vw_enumerators (file_view choice ob) t) as es. clear.
    induction (rd_children d) as [|c l IH]; intros es R; cbn [map flat_map filter] in *; [inversion R; constructor|].
    destruct (rd_tag c =? 0x28); cbn [app] in R; [|now apply IH].
    inversion R as [|? e ? es' H R']; subst. constructor; [now apply enumerator_reads_of|now apply IH].
Qed.
Print Assumptions C90_enumerators.

(** ** C91: units, tags and attributes *)

(** C91: a file is refused just if one of its units is no compilation unit; else it has a unit for each. *)
Theorem C91_units : forall rf,
  (read_file rf = None <-> exists u, In u (rf_units rf) /\ rd_tag (ru_root u) <> 0x11) /\
  (forall ob, read_file rf = Some ob ->
     ob_units ob = map (read_unit rf) (rf_units rf) /\ ob_path ob = rf_path rf /\ ob_big_endian ob = rf_big_endian rf /\
     ob_segments ob = rf_segments rf /\ ob_sections ob = rf_sections rf /\ ob_symbols ob = rf_symbols rf /\
     ob_register ob = rf_register rf /\ ob_program ob = rf_program rf).
Proof.
  intros rf. split.
  - unfold read_file. destruct (forallb _ _) eqn:F.
    + split; [discriminate|]. intros (u & I & N). rewrite forallb_forall in F. specialize (F u I). apply N.eqb_eq in F. contradiction.
    + split; [|reflexivity]. intros _. apply Bool.not_true_iff_false in F.
      induction (rf_units rf) as [|u l IH]; [destruct F; reflexivity|]. cbn [forallb] in F.
      destruct (N.eqb_spec (rd_tag (ru_root u)) 0x11) as [E|E].
      * destruct IH as (x & I & N); [exact F|]. exists x. split; [now right|exact N].
      * exists u. split; [now left|exact E].
  - intros ob RD. unfold read_file in RD. destruct (forallb _ _); [|discriminate]. injection RD as <-. repeat split.
Qed.
Print Assumptions C91_units.

(** C91: the name of a unit, its directory and its language are those of its root entry; it is in Rust just if the language is 0x1c. *)
Theorem C91_root : forall rf u,
  named rf u is_name (rd_attrs (ru_root u)) (given_name (ui_attrs (read_unit rf u))) /\
  named rf u is_comp_dir (rd_attrs (ru_root u)) (ui_dir (read_unit rf u)) /\
  (ui_rust (read_unit rf u) = true <->
   exists a, last_such is_language (rd_attrs (ru_root u)) a /\ snd a = RwLanguage 0x1c) /\
  ui_version (read_unit rf u) = ru_version u /\ ui_address_size (read_unit rf u) = ru_address_size u /\
  ui_lines (read_unit rf u) = option_map rl_rows (ru_lines u) /\
  (forall i a, ui_address (read_unit rf u) i = Some a <-> numbered 0 i (ru_addresses u) a).
Proof.
  intros rf u. cbn [read_unit ui_attrs ui_dir ui_rust ui_version ui_address_size ui_lines ui_address].
  split; [|split; [|split; [|split; [reflexivity|split; [reflexivity|split; [reflexivity|apply entry_of_iff]]]]]].
  - pose proof (proj1 (C89_name rf u (ru_root u))) as H. now rewrite read_attrs in H.
  - unfold unit_comp_dir. set (f := fun (x : option string) (a : N * raw_value) => _).
    assert (OT : forall z b, ~ is_comp_dir b -> f z b = z).
    { intros z b N. subst f. cbn beta. destruct (N.eqb_spec (fst b) 0x1b); [contradiction|reflexivity]. }
    destruct (last_such_dec is_comp_dir (fun a => match N.eq_dec (fst a) 0x1b with left E => or_introl E | right E => or_intror E end) (rd_attrs (ru_root u))) as [(a & L)|N].
    + rewrite (fold_last f is_comp_dir _ a (attr_string rf u (snd a)) None L).
      * destruct (string_maybe rf u (snd a)) as [s S|S]; [now apply (nmd_string _ _ _ _ a)|now apply (nmd_other _ _ _ _ a)].
      * intros z. subst f. cbn beta. destruct L as (_ & _ & _ & E & _). unfold is_comp_dir in E. now rewrite E.
      * exact OT.
    + rewrite (fold_none f is_comp_dir _ None N OT). now constructor.
  - unfold unit_language. set (f := fun (x : option N) (a : N * raw_value) => _).
    assert (OT : forall z b, ~ is_language b -> f z b = z).
    { intros z (c, v) N. subst f. cbn [fst snd]. destruct (N.eqb_spec c 0x13) as [->|]; [|reflexivity]. destruct v; try reflexivity.
      destruct N. split; [reflexivity|]. eexists. reflexivity. }
    assert (D : forall a, is_language a \/ ~ is_language a).
    { intros (c, v). destruct (N.eq_dec c 0x13) as [->|NE]; [|right; intros (X & _); contradiction].
      destruct v; try (right; intros (_ & cx & X); discriminate X). left. split; [reflexivity|]. eexists. reflexivity. }
    destruct (last_such_dec is_language D (rd_attrs (ru_root u))) as [(a & L)|N].
    + assert (PA : is_language a) by (destruct L as (? & ? & _ & PA & _); exact PA). destruct PA as (FA & c & V).
      rewrite (fold_last f is_language _ a (Some c) None L); [|intros z; subst f; cbn beta; now rewrite FA, V|exact OT].
      rewrite N.eqb_eq. split; [intros ->; now exists a|].
      intros (b & Lb & Vb).
      enough (b = a) as -> by congruence.
      destruct L as (b1 & a1 & E1 & P1 & N1), Lb as (b2 & a2 & E2 & P2 & N2). rewrite E1 in E2. clear - E2 P1 P2 N1 N2.
      revert b2 E2. induction b1 as [|x b1 IH]; intros b2 E2.
      * destruct b2 as [|y b2]; cbn [app] in E2; [congruence|]. injection E2 as -> ->. destruct (N1 b); [apply in_or_app; right; now left|exact P2].
      * destruct b2 as [|y b2]; cbn [app] in E2; [|injection E2 as _ E2; now apply (IH b2)].
        injection E2 as -> <-. destruct (N2 a); [apply in_or_app; right; now left|exact P1].
    + rewrite (fold_none f is_language _ None N OT). split; [discriminate|]. intros (a & (b1 & a1 & E & P & _) & _).
      destruct (N a); [rewrite E; apply in_or_app; right; now left|exact P].
Qed.
Print Assumptions C91_root.

(** C91: attributes and tags are told by their numbers; those with other numbers are left alone. *)
Theorem C91_numbers :
  (forall rf u a, In (fst a) (attr_codes (read_attr rf u a))) /\
  (forall rf u a x n, read_attr rf u a = AOther n -> In (fst a) (attr_codes x) -> x = AOther n) /\
  (forall t, In t (tag_codes (read_tag t))) /\
  (forall t x n, read_tag t = TagOther n -> In t (tag_codes x) -> x = TagOther n).
Proof.
  split; [|split; [|split]].
  - intros rf u (c, v). unfold read_attr. cbn [fst snd]. destruct (find _ _) as [(c', f)|] eqn:E; [|now left].
    apply find_some in E. destruct E as (I & E). cbn [fst] in E. apply N.eqb_eq in E. subst c'.
    unfold attribute_table in I. cbn [In] in I.
    repeat (destruct I as [[= <- <-]|I]; [first [left; reflexivity|right; left; reflexivity|destruct v as [ | | [] | | | | | | | | | | | | | | | | | | ]; left; reflexivity]|]). destruct I.
  - intros rf u (c, v) x n E I. cbn [fst] in I.
    assert (NF : ~ In c (map fst (attribute_table rf u))).
    { intros J. apply in_map_iff in J. destruct J as ((c', f) & <- & J). cbn [fst] in *. rewrite (read_attr_at rf u _ f v J) in E.
      unfold attribute_table in J. cbn [In] in J.
      repeat (destruct J as [[= <- <-]|J]; [first [discriminate E|destruct v as [ | | [] | | | | | | | | | | | | | | | | | | ]; discriminate E]|]). destruct J. }
    cbn [attribute_table map fst] in NF.
    destruct x as [| | | | | | | | | | | | | | | | | | | | | | | | | | | | | | |[]| | | | | | |]; cbn [attr_codes In] in I;
      repeat (destruct I as [<-|I]; [first [destruct NF; cbn; tauto|idtac]|]); try destruct I.
    unfold read_attr in E. destruct (find _ _) as [(c', f)|] eqn:FD; [|exact E].
    exfalso. apply NF. apply find_some in FD. destruct FD as (J & X). cbn [fst] in X. apply N.eqb_eq in X. subst c'.
    apply (in_map fst) in J. exact J.
  - intros t. unfold read_tag. destruct (find _ _) as [(c', f)|] eqn:E; [|now left].
    apply find_some in E. destruct E as (I & E). cbn [fst] in E. apply N.eqb_eq in E. subst c'.
    cbn [tag_table In] in I. repeat (destruct I as [[= <- <-]|I]; [first [left; reflexivity|right; left; reflexivity]|]). destruct I.
  - intros t x n E I.
    assert (NF : ~ In t (map fst tag_table)).
    { intros J. cbn [tag_table map fst In] in J. repeat (destruct J as [<-|J]; [discriminate E|]). destruct J. }
    cbn [tag_table map fst] in NF.
    destruct x as [| | | | | | | | | | | | | | | | |[]| | | | |[]| |]; cbn [tag_codes In] in I;
      repeat (destruct I as [<-|I]; [first [destruct NF; cbn; tauto|idtac]|]); try destruct I.
    unfold read_tag in E. destruct (find _ _) as [(c', f)|] eqn:FD; [|exact E].
    exfalso. apply NF. apply find_some in FD. destruct FD as (J & X). cbn [fst] in X. apply N.eqb_eq in X. subst c'.
    apply (in_map fst) in J. exact J.
Qed.
Print Assumptions C91_numbers.

(** C91: sizes, offsets, counts and bounds are the numbers that their constants stand for. *)
Theorem C91_constants : forall rf u code v z, counts v z -> In code [0x0b; 0x0c; 0x0d; 0x16; 0x22; 0x2f; 0x37; 0x6b] ->
  In (read_attr rf u (code, v))
    [AByteSize (Some z); ABitOffset (Some z); ABitSize (Some z); ADiscrValue (Some z); ALowerBound (Some z); AUpperBound (Some z);
     ACount (Some z); ADataBitOffset (Some z)].
Proof.
  intros rf u code v z C I. assert (E : raw_constant v = Some z) by (destruct C; reflexivity).
  repeat (destruct I as [<-|I]; [unfold read_attr; cbn [fst snd attribute_table find N.eqb Pos.eqb]; rewrite E; cbn [In]; tauto|]). destruct I.
Qed.
Print Assumptions C91_constants.

Lemma refers_offset rf u v x d : refers rf u v x d -> info_offset u v = Some (ud_begin (ru_place x) + rd_offset d).
Proof. intros R. now inversion R; subst. Qed.
Lemma ranges_listed u v l : lists RwRanges RwRangesIndex (ru_range_offsets u) (ru_ranges u) v l -> RawModel.attr_ranges u v = Some l.
Proof. intros [o x E|i o x N E]; cbn [RawModel.attr_ranges]; [exact E|]. apply entry_of_iff in N. now rewrite N. Qed.
Lemma locations_listed u v l : lists RwLocations RwLocationsIndex (ru_location_offsets u) (ru_locations u) v l ->
  raw_place u v = PList l.
Proof. intros [o x E|i o x N E]; cbn [raw_place attr_locations]; [now rewrite E|]. apply entry_of_iff in N. now rewrite N, E. Qed.

Lemma says_maybe_is rf u v s : says_maybe rf u v s -> s = attr_string rf u v.
Proof. intros [t S|S]; symmetry; [now apply attr_string_iff|now apply attr_string_none]. Qed.

(** C91: the other attributes: flags, references, lists, expressions and what calls have. *)
Theorem C91_values : forall rf u a b, reads rf u a b -> read_attr rf u a = b.
Proof.
  intros rf u a b R. inversion R as [ | ? H| ? H| ? ? H| ? ? H| | | | | ? ? ? H| ? ? ? H| ? ? ? H| ? ? ? H| ? ? ? H| ? ? ? H| v path dir p s H H2 H3 H4
    | | | ? ? H| ? ? H| ? ? ? ? H| ? ? ? ? H| ? ? ? ? H| | ]; subst;
    try (apply refers_offset in H); try (apply attr_address_iff in H); try (apply ranges_listed in H); try (apply locations_listed in H);
    try (destruct H as [->| ->]); unfold read_attr; cbn [fst snd attribute_table find N.eqb Pos.eqb]; try rewrite H; try reflexivity.
  destruct (source_file_path u rf v path H) as (x & S & D & _). rewrite S, (D dir H2). apply says_maybe_is in H3, H4. now subst.
Qed.
Print Assumptions C91_values.

(** ** Example *)

(** Two units.  The first has a table of version 5, strings in all forms, and a function whose type is in the second unit; the
    second has a table of version 4. *)
Local Open Scope string_scope.
Local Open Scope list_scope.
Local Open Scope N_scope.
Local Definition bytes (s : string) : list N := map Ascii.N_of_ascii (list_ascii_of_string s).
Local Definition int_entry : raw_die :=
  RawDie 0x24 30 [(0x03, RwStrIndex 0); (0x0b, RwConst (FixedData 1 4)); (0x3e, RwEncoding 7)] [].
Local Definition colour_entry : raw_die :=
  RawDie 0x04 40
    [(0x03, RwString (bytes "Colour")); (0x49, RwUnitRef 30); (0x3a, RwFileIndex 1); (0x3b, RwConst (UnsignedData 3))]
    [ RawDie 0x28 45 [(0x03, RwString (bytes "Red")); (0x1c, RwConst (FixedData 1 200))] [];
      RawDie 0x28 46 [(0x03, RwString (bytes "Blue")); (0x1c, RwConst (SignedData 7))] [] ].
Local Definition main_entry : raw_die :=
  RawDie 0x2e 60
    [(0x03, RwStrRef 1); (0x3a, RwFileIndex 0); (0x11, RwAddressIndex 1); (0x12, RwConst (UnsignedData 16));
     (0x49, RwInfoRef 130)] [].
Local Definition first_raw : raw_unit :=
  mkRawUnit (mkPlace 0 11 100)
    (RawDie 0x11 11
       [(0x03, RwLineStrRef 5); (0x1b, RwLineStrRef 0); (0x13, RwLanguage 0x1d); (0x11, RwAddressIndex 1);
        (0x12, RwConst (UnsignedData 64))] [int_entry; colour_entry; main_entry])
    (Some (mkRawLines 5 None [RwLineStrRef 0; RwString (bytes "inc")] [(RwLineStrRef 5, 0); (RwString (bytes "e.h"), 1)]
             [(0x1000, false); (0x1040, true)]))
    5 8 [0x9000; 0x1000] [6] [] (fun _ => None) [] (fun _ => None).
Local Definition word_entry : raw_die :=
  RawDie 0x16 30 [(0x03, RwString (bytes "word")); (0x49, RwInfoRef 30); (0x3a, RwFileIndex 1); (0x3b, RwConst (UnsignedData 9))] [].
Local Definition run_entry : raw_die :=
  RawDie 0x2e 50
    [(0x03, RwString (bytes "run")); (0x3a, RwFileIndex 2); (0x11, RwAddress 0x2000); (0x12, RwAddress 0x2020);
     (0x49, RwUnitRef 30)] [].
Local Definition second_raw : raw_unit :=
  mkRawUnit (mkPlace 100 11 200)
    (RawDie 0x11 11 [(0x03, RwString (bytes "b.rs")); (0x13, RwLanguage 0x1c); (0x11, RwAddress 0x2000); (0x12, RwAddress 0x2040)]
       [word_entry; run_entry])
    (Some (mkRawLines 4 (Some (RwString (bytes "/top"))) [RwString (bytes "inc")]
             [(RwString (bytes "b.h"), 1); (RwString (bytes "b.c"), 0)] [(0x2000, false); (0x2040, true)]))
    4 8 [] [] [] (fun _ => None) [] (fun _ => None).
Local Definition sample : raw_file :=
  mkRawFile "a.out" false [] [] [] [first_raw; second_raw]
    ([0] ++ bytes "main" ++ [0] ++ bytes "int" ++ [0]) (bytes "/src" ++ [0] ++ bytes "a.c" ++ [0]) (fun _ => None) None.
Local Definition sample_object : object_input :=
  match read_file sample with Some ob => ob | None => mkObjectInput "" false [] [] [] [] (fun _ => EncOther) (fun _ => EndDefault) (fun _ => []) (fun _ => None) None end.

Local Lemma sample_well_formed : raw_well_formed sample.
Proof.
  split.
  - split.
    + cbn. repeat constructor. discriminate.
    + cbn. repeat constructor; discriminate.
  - intros u [<-|[<-|[]]].
    + split; [discriminate|]. split; [cbn; repeat (constructor; [cbn; intuition discriminate|]); constructor|].
      intros d I. unfold inside_unit. cbn in I. repeat (destruct I as [<-|I]; [split; [discriminate|reflexivity]|]). destruct I.
    + split; [discriminate|]. split; [cbn; repeat (constructor; [cbn; intuition discriminate|]); constructor|].
      intros d I. unfold inside_unit. cbn in I. repeat (destruct I as [<-|I]; [split; [discriminate|reflexivity]|]). destruct I.
Qed.

Example C88_example :
  raw_well_formed sample /\ read_file sample = Some sample_object /\
  refers sample first_raw (RwInfoRef 130) second_raw word_entry /\ In word_entry (raw_below second_raw) /\
  last_such is_type_reference (rd_attrs main_entry) (0x49, RwInfoRef 130) /\
  given_type (die_attrs (read_die sample first_raw main_entry)) = 130 /\
  given_type (die_attrs (read_die sample second_raw run_entry)) = 130 /\
  option_map (fun p => given_name (die_attrs (snd p))) (entry_in (ob_units sample_object) 130) = Some (Some "word") /\
  option_map (fun p => rd_offset (snd p)) (raw_tree sample 111) = Some 11 /\ raw_tree sample 131 = None.
Proof.
  split; [exact sample_well_formed|]. split; [reflexivity|].
  split; [apply rfs_info; [right; now left|right; now left|reflexivity]|]. split; [now left|].
  split; [exists [(0x03, RwStrRef 1); (0x3a, RwFileIndex 0); (0x11, RwAddressIndex 1); (0x12, RwConst (UnsignedData 16))], [];
          split; [reflexivity|]; split; [split; [now left|exists 130; now right]|intros b []]|].
  repeat split; vm_compute; reflexivity.
Qed.

Example C89_example :
  map (fun d => (given_name (die_attrs (read_die sample first_raw d)), given_source (die_attrs (read_die sample first_raw d))))
    [int_entry; colour_entry; main_entry] =
  [(Some "int", mkSource None None 0 0); (Some "Colour", mkSource (Some "inc") (Some "e.h") 3 0); (Some "main", mkSource None None 0 0)] /\
  map (fun d => (given_name (die_attrs (read_die sample second_raw d)), given_source (die_attrs (read_die sample second_raw d))))
    [word_entry; run_entry] =
  [(Some "word", mkSource (Some "inc") (Some "b.h") 9 0); (Some "run", mkSource (Some "/top") (Some "b.c") 0 0)] /\
  (given_low_pc None (die_attrs (read_die sample first_raw main_entry)), given_high_pc (die_attrs (read_die sample first_raw main_entry)),
   given_length (die_attrs (read_die sample first_raw main_entry))) = (Some 0x1000, None, Some 16) /\
  (given_low_pc None (die_attrs (read_die sample second_raw run_entry)), given_high_pc (die_attrs (read_die sample second_raw run_entry)),
   given_length (die_attrs (read_die sample second_raw run_entry))) = (Some 0x2000, Some 0x2020, None).
Proof. repeat split; vm_compute; reflexivity. Qed.

Example C90_example :
  type_at sample_object 40 = Some (mkType 40 (TEnum (mkEnum None (Some "Colour") false 30 opt64_none))) /\
  ob_encoding sample_object 30 = EncUnsigned /\
  vw_enumerators (file_view (fun _ => O) sample_object) (mkType 40 (TEnum (mkEnum None (Some "Colour") false 30 opt64_none))) =
    [mkEnumerator (Some "Red") (EvUnsigned 200); mkEnumerator (Some "Blue") (EvUnsigned 7)] /\
  (forall e a c, In e (rd_children colour_entry) -> In a (rd_attrs e) -> snd a = RwConst c -> const_sane c).
Proof.
  split; [vm_compute; reflexivity|]. split; [vm_compute; reflexivity|]. split; [vm_compute; reflexivity|].
  intros e a c I J E. cbn in I. repeat (destruct I as [<-|I]; [cbn in J; repeat (destruct J as [<-|J]; [try discriminate E; injection E as <-; vm_compute; intuition|]); destruct J|]). destruct I.
Qed.

Example C91_example :
  map (fun u => (given_name (ui_attrs u), ui_dir u, ui_rust u)) (ob_units sample_object) =
    [(Some "a.c", Some "/src", false); (Some "b.rs", None, true)] /\
  read_file (mkRawFile "a.out" false [] [] [] [mkRawUnit (mkPlace 0 11 100) (RawDie 0x41 11 [] []) None 4 8 [] [] [] (fun _ => None) [] (fun _ => None)]
               [] [] (fun _ => None) None) = None /\
  reads sample first_raw (0x31, RwUnitRef 60) (AAbstractOrigin (Some 60)) /\
  read_attr sample first_raw (0x7777, RwOther) = AOther 0x7777.
Proof.
  split; [vm_compute; reflexivity|]. split; [reflexivity|]. split; [|reflexivity].
  apply (rds_origin sample first_raw (RwUnitRef 60) first_raw main_entry). apply (rfs_unit sample first_raw main_entry). cbn. tauto.
Qed.
