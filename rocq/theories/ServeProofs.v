(** Proofs about paths and about completing pages. *)
From Coq Require Import List NArith Bool String Ascii Relations Lia DecimalString DecimalN DecimalFacts DecimalPos.
From Verif Require Import Base FilterModel FilterSpec CliProofs OptionsModel IdModel PrintModel BloatModel ReportModel
  ServeModel ServeSpec.
Import ListNotations.
Local Open Scope string_scope.

(** ** Paths *)

Lemma split_nonempty s : exists h t, split_path s = h :: t.
Proof.
  induction s as [|c s [h [t IH]]]; [do 2 eexists; reflexivity|]. cbn. destruct (Ascii.eqb c "/"); [do 2 eexists; reflexivity|].
  rewrite IH. do 2 eexists; reflexivity.
Qed.
Lemma one_part_tail c s : one_part (String c s) -> one_part s /\ c <> "/"%char.
Proof.
  intros O. split.
  - intros a b E. apply (O (String c a) b). rewrite E. reflexivity.
  - intros ->. exact (O "" s eq_refl).
Qed.
Lemma one_part_cons c s : one_part s -> c <> "/"%char -> one_part (String c s).
Proof.
  intros O N a b E. destruct a as [|c' a]; cbn in E; injection E as E1 E2; [contradiction|]. exact (O a b E2).
Qed.
Lemma one_part_nil : one_part "".
Proof. intros a b E. destruct a; discriminate. Qed.
Lemma split_app p rest : one_part p -> split_path (p ++ "/" ++ rest) = p :: split_path rest.
Proof.
  induction p as [|c p IH]; intros O; [reflexivity|]. apply one_part_tail in O. destruct O as [O N].
  change (String c p ++ "/" ++ rest) with (String c (p ++ "/" ++ rest)). cbn [split_path].
  apply Ascii.eqb_neq in N. rewrite N, (IH O). reflexivity.
Qed.
Lemma split_one p : one_part p -> split_path p = [p].
Proof.
  induction p as [|c p IH]; intros O; [reflexivity|]. apply one_part_tail in O. destruct O as [O N].
  cbn [split_path]. apply Ascii.eqb_neq in N. rewrite N, (IH O). reflexivity.
Qed.
(** The first part, and what follows it. *)
Lemma split_first s : exists p rest, s = p ++ rest /\ one_part p /\ ends rest /\
  match rest with "" => split_path s = [p] | String _ r => rest = "/" ++ r /\ split_path s = p :: split_path r end.
Proof.
  induction s as [|c s (p & rest & E & O & N & F)].
  - exists "", "". repeat split; [apply one_part_nil|now left].
  - destruct (Ascii.eqb c "/") eqn:C.
    + apply Ascii.eqb_eq in C as ->. exists "", (String "/" s). repeat split; [apply one_part_nil|right; now exists s].
    + exists (String c p), rest. split; [now rewrite E|]. split; [apply one_part_cons; [exact O|now apply Ascii.eqb_neq]|].
      split; [exact N|]. cbn [split_path]. rewrite C. destruct rest; [now rewrite F|]. destruct F as [F1 F2]. split; [exact F1|]. now rewrite F2.
Qed.
Lemma split_ends p rest : one_part p -> ends rest -> exists t, split_path (p ++ rest) = p :: t.
Proof.
  intros O [->|[r ->]].
  - exists []. replace (p ++ "") with p; [now apply split_one|]. clear O. induction p; cbn; congruence.
  - exists (split_path r). now apply split_app.
Qed.

Lemma digit_part l : Forall digit l -> one_part (string_of_list_ascii l).
Proof.
  induction 1 as [|c l D _ IH]; [apply one_part_nil|]. cbn. apply one_part_cons; [exact IH|]. intros ->. vm_compute in D.
  destruct D as [D1 D2]. congruence.
Qed.
Lemma numeral_part s n : id_text s n -> one_part s.
Proof.
  intros [(sign & l & -> & S & _ & F & _) _]. destruct S as [->| ->]; cbn; [now apply digit_part|].
  apply one_part_cons; [now apply digit_part|discriminate].
Qed.
Lemma numeral_parsed s n : id_text s n <-> parse_usize s = Some n.
Proof. symmetry. apply parse_usize_spec. Qed.

(** Numbers as they are written. *)
Definition digits (d : Decimal.uint) : list ascii := list_ascii_of_string (NilEmpty.string_of_uint d).
Lemma acc_decimal d : forall acc,
  (N.pos (Pos.of_uint_acc d acc) = N.pos acc * 10 ^ N.of_nat (List.length (digits d)) + decimal (digits d))%N.
Proof.
  induction d as [|d IH|d IH|d IH|d IH|d IH|d IH|d IH|d IH|d IH|d IH]; intros acc;
    [cbn; lia|unfold digits in *; cbn [Pos.of_uint_acc NilEmpty.string_of_uint list_ascii_of_string List.length decimal];
     rewrite IH, Nat2N.inj_succ, N.pow_succ_r' ..].
  all: match goal with |- context [N_of_ascii ?c] => let v := eval vm_compute in (N_of_ascii c) in change (N_of_ascii c) with v end.
  all: set (p := (10 ^ _)%N); set (q := decimal _); clearbody p q; clear; lia.
Qed.

Lemma digits_decimal d : decimal (digits d) = N.of_uint d.
Proof.
  unfold N.of_uint. induction d as [|d IH|d IH|d IH|d IH|d IH|d IH|d IH|d IH|d IH|d IH]; [reflexivity|unfold digits in *;
    cbn [Pos.of_uint NilEmpty.string_of_uint list_ascii_of_string decimal]..].
  { rewrite IH. change (N_of_ascii "0") with 48%N. lia. }
  all: rewrite acc_decimal; unfold digits.
  all: match goal with |- context [N_of_ascii ?c] => let v := eval vm_compute in (N_of_ascii c) in change (N_of_ascii c) with v end.
  all: lia.
Qed.
Lemma digits_digit d : Forall digit (digits d).
Proof.
  induction d; unfold digits in *; cbn [NilEmpty.string_of_uint list_ascii_of_string]; constructor; try assumption;
    unfold digit; vm_compute; split; discriminate.
Qed.
Definition written (n : nat) : string := NilZero.string_of_uint (N.to_uint (N.of_nat n)).
Lemma written_numeral n : numeral (written n) (N.of_nat n).
Proof.
  unfold written. destruct n as [|n].
  - exists "", ["0"%char]. split; [reflexivity|]. split; [now left|]. split; [discriminate|]. split; [|reflexivity]. repeat constructor; vm_compute; discriminate.
  - set (k := N.of_nat (S n)). assert (E : NilZero.string_of_uint (N.to_uint k) = NilEmpty.string_of_uint (N.to_uint k)).
    { destruct (N.to_uint k) eqn:D; try reflexivity. exfalso. assert (N.of_uint (N.to_uint k) = k) by apply DecimalN.Unsigned.of_to.
      rewrite D in H. cbn in H. unfold k in H. lia. }
    rewrite E. exists "", (digits (N.to_uint k)). unfold digits at 1. rewrite string_of_list_ascii_of_string.
    split; [reflexivity|]. split; [now left|]. split; [|split; [apply digits_digit|]].
    + intros D. pose proof (digits_decimal (N.to_uint k)) as H. rewrite D, DecimalN.Unsigned.of_to in H. unfold k in H. cbn [decimal] in H. lia.
    + now rewrite digits_decimal, DecimalN.Unsigned.of_to.
Qed.

Section Requests.
  Variable f : list string -> option text.
  Lemma serve_nothing : serve f "" = f [""].
  Proof. reflexivity. Qed.
  Lemma serve_path rest : serve f ("/" ++ rest) = f (split_path rest).
  Proof. reflexivity. Qed.
  Lemma serve_other path : path <> "" -> (forall rest, path <> "/" ++ rest) -> serve f path = Some [].
  Proof.
    intros N O. destruct path as [|c path]; [contradiction|]. cbn.
    destruct (Ascii.eqb_spec c "/") as [->|D]; [now destruct (O path)|].
    destruct c as [[] [] [] [] [] [] [] []]; try reflexivity. now destruct D.
  Qed.
End Requests.

Lemma parts_id s rest t : split_path rest = t -> one_part s -> split_path ("id/" ++ s ++ "/" ++ rest) = "id" :: s :: t.
Proof.
  intros <- O. change ("id/" ++ s ++ "/" ++ rest) with ("id" ++ "/" ++ (s ++ "/" ++ rest)). rewrite split_app; [now rewrite split_app|].
  intros a b E. destruct a as [|? [|? [|? ?]]]; discriminate.
Qed.
Lemma parts_id_end s : one_part s -> split_path ("id/" ++ s) = ["id"; s].
Proof.
  intros O. change ("id/" ++ s) with ("id" ++ "/" ++ s). rewrite split_app; [now rewrite split_one|].
  intros a b E. destruct a as [|? [|? [|? ?]]]; discriminate.
Qed.

Lemma app_nil s : s ++ "" = s.
Proof. induction s; cbn; congruence. Qed.

(** A handler that sends [whole] for the whole page, and [by_id] otherwise. *)
Section Handler.
  Variables (whole : option text) (by_id : N -> list string -> option text).
  Definition handler (path : list string) : option text :=
    match path with
    | [] => Some []
    | part :: path' =>
        if String.eqb part "" then whole
        else if String.eqb part "id" then
          match path' with
          | [] => Some []
          | id :: path'' => match parse_usize id with None => Some [] | Some id => by_id id path'' end
          end
        else Some []
    end.
  Lemma handler_root : serve handler "" = whole.
  Proof. reflexivity. Qed.
  Lemma handler_whole rest : ends rest -> serve handler ("/" ++ rest) = whole.
  Proof.
    intros E. rewrite serve_path. destruct (split_ends "" rest one_part_nil E) as (t & T). cbn [append] in T. now rewrite T.
  Qed.
  Lemma handler_id s n : id_text s n -> serve handler ("/id/" ++ s) = by_id n [].
  Proof.
    intros T. change ("/id/" ++ s) with ("/" ++ ("id/" ++ s)). rewrite serve_path, parts_id_end by exact (numeral_part s n T).
    apply numeral_parsed in T. unfold handler. cbn [String.eqb Ascii.eqb Bool.eqb]. now rewrite T.
  Qed.
  Lemma handler_more s n rest : id_text s n -> serve handler ("/id/" ++ s ++ "/" ++ rest) = by_id n (split_path rest).
  Proof.
    intros T. change ("/id/" ++ s ++ "/" ++ rest) with ("/" ++ ("id/" ++ s ++ "/" ++ rest)).
    rewrite serve_path, (parts_id s rest _ eq_refl) by exact (numeral_part s n T).
    apply numeral_parsed in T. unfold handler. cbn [String.eqb Ascii.eqb Bool.eqb]. now rewrite T.
  Qed.
  (** The paths that are not of these forms. *)
  Lemma handler_cases path :
    (path = "" \/ exists rest, path = "/" ++ rest /\ ends rest) \/
    (exists s n, id_text s n /\ (path = "/id/" ++ s \/ exists rest, path = "/id/" ++ s ++ "/" ++ rest)) \/
    serve handler path = Some [].
  Proof.
    destruct path as [|c path]; [now left; left|].
    destruct (Ascii.eqb_spec c "/") as [->|D].
    2:{ right; right. apply serve_other; [discriminate|]. intros rest E. injection E as E _. contradiction. }
    change (String "/" path) with ("/" ++ path). rewrite serve_path.
    destruct (split_first path) as (p & rest & E & O & N & F).
    destruct (String.eqb_spec p "") as [->|P0]; [left; right; exists rest; split; [now rewrite E|exact N]|].
    destruct (String.eqb_spec p "id") as [->|P1].
    2:{ right; right. apply String.eqb_neq in P0, P1. destruct rest as [|c rest]; [|destruct F as [_ F]]; rewrite F; unfold handler; now rewrite P0, P1. }
    destruct rest as [|c rest]; [right; right; rewrite F; reflexivity|]. destruct F as [F1 F]. rewrite F1 in E.
    destruct (split_first rest) as (s & more & E' & O' & N' & F').
    destruct (parse_usize s) as [n|] eqn:PS.
    - right; left. exists s, n. split; [now apply numeral_parsed|]. rewrite E, E'.
      destruct more as [|c' more]; [left; rewrite app_nil; reflexivity|].
      destruct F' as [F' _]. rewrite F'. right. exists more. reflexivity.
    - right; right. rewrite F. destruct more as [|c' more]; [|destruct F' as [_ F']]; rewrite F'; unfold handler;
        cbn [String.eqb Ascii.eqb Bool.eqb]; now rewrite PS.
  Qed.
End Handler.

Section Requests2.
  Variable whole : option text.
  Variables (item parent : N -> option text) (detail : N -> string -> option text).
  Definition print_by_id (n : N) (path : list string) : option text :=
    match path with
    | [] => item n
    | d :: _ => if String.eqb d "parent" then parent n else detail n d
    end.
  Definition answer (r : request) : option text :=
    match r with Whole => whole | Item n => item n | Detail n d => detail n d | Parent n => parent n end.

  Lemma part_parent : one_part "parent".
  Proof. intros a b E. do 7 (destruct a as [|? a]; try discriminate). Qed.
  Lemma print_asks path r : asks path r -> serve (handler whole print_by_id) path = answer r.
  Proof.
    intros A. destruct A as [|rest E|s n T|s n rest T E|s n d rest T O N E].
    - reflexivity.
    - now apply handler_whole.
    - now rewrite (handler_id _ _ s n T).
    - change ("/id/" ++ s ++ "/parent" ++ rest) with ("/id/" ++ s ++ "/" ++ ("parent" ++ rest)).
      rewrite (handler_more _ _ s n _ T). destruct (split_ends _ _ part_parent E) as (t & ->). reflexivity.
    - rewrite (handler_more _ _ s n _ T). destruct (split_ends _ _ O E) as (t & ->). cbn [print_by_id answer].
      now rewrite (proj2 (String.eqb_neq d "parent") N).
  Qed.
  Lemma print_asks_not path : (forall r, ~ asks path r) -> serve (handler whole print_by_id) path = Some [].
  Proof.
    intros A. destruct (handler_cases whole print_by_id path) as [[->|(rest & -> & E)]|[(s & n & T & [->|(rest & ->)])|H]].
    - exfalso. apply (A Whole). constructor.
    - exfalso. apply (A Whole). now constructor.
    - exfalso. apply (A (Item n)). now constructor.
    - exfalso. destruct (split_first rest) as (d & more & -> & O & N & _).
      destruct (String.eqb_spec d "parent") as [->|D].
      + apply (A (Parent n)). change ("/" ++ "parent" ++ more) with ("/parent" ++ more). now constructor.
      + apply (A (Detail n d)). now constructor.
    - exact H.
  Qed.

  Definition diff_by_id (n : N) (path : list string) : option text := match path with [] => item n | _ => Some [] end.
  Lemma diff_asks path r : asks_diff path r -> serve (handler whole diff_by_id) path = answer r.
  Proof.
    intros A. destruct A as [|rest E|s n T]; [reflexivity|now apply handler_whole|now rewrite (handler_id _ _ s n T)].
  Qed.
  Lemma diff_asks_not path : (forall r, ~ asks_diff path r) -> serve (handler whole diff_by_id) path = Some [].
  Proof.
    intros A. destruct (handler_cases whole diff_by_id path) as [[->|(rest & -> & E)]|[(s & n & T & [->|(rest & ->)])|H]].
    - exfalso. apply (A Whole). constructor.
    - exfalso. apply (A Whole). now constructor.
    - exfalso. apply (A (Item n)). now constructor.
    - rewrite (handler_more _ _ s n _ T). destruct (split_nonempty rest) as (h & t & ->). reflexivity.
    - exact H.
  Qed.

  Definition sizes_by_id (n : N) (path : list string) : option text := item n.
  Lemma sizes_asks path r : asks_sizes path r -> serve (handler whole sizes_by_id) path = answer r.
  Proof.
    intros A. destruct A as [|rest E|s n rest T E]; [reflexivity|now apply handler_whole|].
    destruct E as [->|(r & ->)]; [rewrite app_nil; now rewrite (handler_id _ _ s n T)|now rewrite (handler_more _ _ s n _ T)].
  Qed.
  Lemma sizes_asks_not path : (forall r, ~ asks_sizes path r) -> serve (handler whole sizes_by_id) path = Some [].
  Proof.
    intros A. destruct (handler_cases whole sizes_by_id path) as [[->|(rest & -> & E)]|[(s & n & T & [->|(rest & ->)])|H]].
    - exfalso. apply (A Whole). constructor.
    - exfalso. apply (A Whole). now constructor.
    - exfalso. apply (A (Item n)). rewrite <- (app_nil s). constructor; [exact T|now left].
    - exfalso. apply (A (Item n)). constructor; [exact T|right; now exists rest].
    - exact H.
  Qed.
End Requests2.
