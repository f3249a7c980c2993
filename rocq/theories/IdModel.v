(** Model of the ids in /repo/main/src/print/file.rs: [assign_ids],
    [assign_merged_ids] and what looking up an id leads to ([print_id],
    [print_parent], [diff_id], [bloat_id]).

    [set_id] calls are recorded in a log; an item's id is the last one recorded for
    it, or 0 if there is none (parser/src/lib.rs, [Id::default]). *)
From Coq Require Import List Arith NArith Bool.
From Verif Require Import Base TypeModel FileModel DiffModel OptionsModel FilterModel.
Import ListNotations.

(** main/src/print/mod.rs, [Id]. *)
Inductive item_id :=
| IdNone
| IdUnit (unit_index : nat)
| IdType (unit_index type_index : nat)
| IdFunction (unit_index function_index : nat)
| IdVariable (unit_index variable_index : nat).

(** The items of a file that [Id] can name, and the [set_id] calls made on them. *)
Definition id_log := list (item_id * nat).

Definition item_id_eqb (x y : item_id) : bool :=
  match x, y with
  | IdNone, IdNone => true
  | IdUnit a, IdUnit b => a =? b
  | IdType a i, IdType b j | IdFunction a i, IdFunction b j | IdVariable a i, IdVariable b j =>
      (a =? b) && (i =? j)
  | _, _ => false
  end.

(** The id of an item after the recorded calls. *)
Definition id_of (log : id_log) (x : item_id) : nat :=
  match find (fun e => item_id_eqb (fst e) x) (rev log) with Some (_, n) => n | None => 0 end.

(** ** Printing one file *)

(** The state of [assign_ids]: [ids], and the calls of [set_id] so far. *)
Definition ids_state := (list item_id * id_log)%type.

(** [item.set_id(ids.len()); ids.push(id)]. *)
Definition push_id (s : ids_state) (x : item_id) : ids_state :=
  let '(ids, log) := s in (ids ++ [x], log ++ [(x, List.length ids)]).

(** file.rs:24-45, [assign_ids_in_unit]. *)
Definition assign_ids_in_unit (ui : nat) (u : unit) (s : ids_state) : ids_state :=
  let s1 := fold_left (fun s p => push_id s (IdType ui (fst p))) (enumerate (un_types u)) s in
  let s2 :=
    fold_left (fun s p => push_id s (IdFunction ui (fst p))) (enumerate (un_functions u)) s1 in
  fold_left (fun s p => push_id s (IdVariable ui (fst p))) (enumerate (un_variables u)) s2.

(** file.rs:13-22, [assign_ids]. *)
Definition assign_ids (units : list unit) : ids_state :=
  fold_left (fun s p => assign_ids_in_unit (fst p) (snd p) (push_id s (IdUnit (fst p))))
    (enumerate units) ([], []).

(** The item behind an id: file.rs:384-453, [print_id], prints the body of ... *)
Inductive item := ItUnit (u : unit) | ItType (u : unit) (t : type) | ItFunction (u : unit) (f : func)
| ItVariable (u : unit) (v : var).

Definition opt_bind {A B} (x : option A) (f : A -> option B) : option B :=
  match x with Some y => f y | None => None end.

Definition item_at (units : list unit) (x : item_id) : option item :=
  match x with
  | IdNone => None
  | IdUnit ui => option_map ItUnit (nth_error units ui)
  | IdType ui i =>
      opt_bind (nth_error units ui) (fun u => option_map (ItType u) (nth_error (un_types u) i))
  | IdFunction ui i =>
      opt_bind (nth_error units ui)
        (fun u => option_map (ItFunction u) (nth_error (un_functions u) i))
  | IdVariable ui i =>
      opt_bind (nth_error units ui)
        (fun u => option_map (ItVariable u) (nth_error (un_variables u) i))
  end.

Definition print_id_item (units : list unit) (ids : list item_id) (id : nat) : option item :=
  opt_bind (nth_error ids id) (item_at units).

(** file.rs:371-382, [print_parent]. *)
Definition print_parent (units : list unit) (ids : list item_id) (log : id_log) (id : nat)
  : option nat :=
  match nth_error ids id with
  | Some (IdType ui _) | Some (IdFunction ui _) | Some (IdVariable ui _) =>
      match nth_error units ui with Some _ => Some (id_of log (IdUnit ui)) | None => None end
  | _ => None
  end.

(** ** Diffing two files *)

(** The state of [assign_merged_ids]: [ids], and the [set_id] calls on the items of
    the first and of the second file. *)
Record merged_state := mkMerged {
  ms_ids : list (item_id * item_id); ms_a : id_log; ms_b : id_log }.

(** One row: [set_id] on the item or items, then [ids.push]. *)
Definition push_row (s : merged_state) (r : merge_result item_id item_id) : merged_state :=
  let n := List.length (ms_ids s) in
  match r with
  | MBoth x y => mkMerged (ms_ids s ++ [(x, y)]) (ms_a s ++ [(x, n)]) (ms_b s ++ [(y, n)])
  | MLeft x => mkMerged (ms_ids s ++ [(x, IdNone)]) (ms_a s ++ [(x, n)]) (ms_b s)
  | MRight y => mkMerged (ms_ids s ++ [(IdNone, y)]) (ms_a s) (ms_b s ++ [(y, n)])
  end.

Definition map_result {T U T' U'} (f : T -> T') (g : U -> U') (r : merge_result T U)
  : merge_result T' U' :=
  match r with MLeft x => MLeft (f x) | MRight y => MRight (g y) | MBoth x y => MBoth (f x) (g y) end.

(** file.rs:101-146, [assign_unmerged_ids_in_unit]. *)
Definition unmerged_row (left : bool) (x : item_id) : merge_result item_id item_id :=
  if left then MLeft x else MRight x.
Definition assign_unmerged_ids_in_unit (ui : nat) (u : unit) (left : bool) (s : merged_state)
  : merged_state :=
  let s1 := fold_left (fun s p => push_row s (unmerged_row left (IdType ui (fst p))))
              (enumerate (un_types u)) s in
  let s2 := fold_left (fun s p => push_row s (unmerged_row left (IdFunction ui (fst p))))
              (enumerate (un_functions u)) s1 in
  fold_left (fun s p => push_row s (unmerged_row left (IdVariable ui (fst p))))
    (enumerate (un_variables u)) s2.

(** file.rs:209-213: [inline], on enumerated functions. *)
Definition enum_inlined (r : merge_result (nat * func) (nat * func)) : bool :=
  row_inlined (map_result snd snd r).

(** file.rs:148-303, [assign_merged_ids_in_unit]. *)
Definition assign_merged_ids_in_unit (o : options) (pc : param_cmp) (ha : hash) (uia : nat)
    (ua : unit) (hb : hash) (uib : nat) (ub : unit) (s : merged_state) : merged_state :=
  let types_a := stable_sort (fun x y => type_cmp_id ha (snd x) ha (snd y))
                   (enumerate_and_filter_types o ha true ua) in
  let types_b := stable_sort (fun x y => type_cmp_id hb (snd x) hb (snd y))
                   (enumerate_and_filter_types o hb true ub) in
  let types := merge_all (fun a b => type_cmp_id ha (snd a) hb (snd b)) types_a types_b in
  let s1 := fold_left (fun s r =>
              push_row s (map_result (fun p => IdType uia (fst p)) (fun p => IdType uib (fst p)) r))
              types s in
  let functions_a := stable_sort (fun x y => function_cmp_for_sort pc ha (snd x) ha (snd y))
                       (enumerate_and_filter_functions o ua) in
  let functions_b := stable_sort (fun x y => function_cmp_for_sort pc hb (snd x) hb (snd y))
                       (enumerate_and_filter_functions o ub) in
  let rows := merge_all (fun a b => function_cmp_id (snd a) (snd b)) functions_a functions_b in
  let functions := filter (fun r => negb (enum_inlined r)) rows in
  let inlined_functions := filter enum_inlined rows in
  let s2 := fold_left (fun s r =>
              push_row s (map_result (fun p => IdFunction uia (fst p))
                            (fun p => IdFunction uib (fst p)) r))
              (functions ++ inlined_functions) s1 in
  let variables_a := stable_sort (fun x y => variable_cmp_id (snd x) (snd y))
                       (enumerate_and_filter_variables o ua) in
  let variables_b := stable_sort (fun x y => variable_cmp_id (snd x) (snd y))
                       (enumerate_and_filter_variables o ub) in
  let variables := merge_all (fun a b => variable_cmp_id (snd a) (snd b)) variables_a variables_b in
  fold_left (fun s r =>
    push_row s (map_result (fun p => IdVariable uia (fst p)) (fun p => IdVariable uib (fst p)) r))
    variables s2.

(** file.rs:47-99, [assign_merged_ids]. *)
Definition assign_merged_ids (o : options) (pc : param_cmp) (ha : hash) (fa : list unit)
    (hb : hash) (fb : list unit) : merged_state :=
  let units_a := stable_sort (fun x y => unit_cmp_id o (snd x) (snd y))
                   (enumerate_and_filter_units o fa) in
  let units_b := stable_sort (fun x y => unit_cmp_id o (snd x) (snd y))
                   (enumerate_and_filter_units o fb) in
  let units := merge_all (fun a b => unit_cmp_id o (snd a) (snd b)) units_a units_b in
  fold_left (fun s r =>
    let s' := push_row s (map_result (fun p => IdUnit (fst p)) (fun p => IdUnit (fst p)) r) in
    match r with
    | MBoth (uia, a) (uib, b) => assign_merged_ids_in_unit o pc ha uia a hb uib b s'
    | MLeft (ui, u) => assign_unmerged_ids_in_unit ui u true s'
    | MRight (ui, u) => assign_unmerged_ids_in_unit ui u false s'
    end) units (mkMerged [] [] []).

(** What [diff_id] (file.rs:520-738) prints the body of: an item of the first or of the second
    file, two items to compare, nothing, or a panic of [unwrap]. *)
Inductive diff_target := DOld (x : item) | DNew (y : item) | DTwo (x y : item) | DNothing | DPanic.
Definition one_item (of_file : item -> diff_target) (x : option item) : diff_target :=
  match x with Some i => of_file i | None => DNothing end.
Definition diff_id_target (fa fb : list unit) (ids : list (item_id * item_id)) (id : nat)
  : diff_target :=
  match nth_error ids id with
  | None => DPanic
  | Some (IdNone, y) => one_item DNew (item_at fb y)
  | Some (x, IdNone) => one_item DOld (item_at fa x)
  | Some (x, y) =>
      match x, y with
      | IdUnit _, IdUnit _ | IdType _ _, IdType _ _ | IdFunction _ _, IdFunction _ _
      | IdVariable _ _, IdVariable _ _ =>
          match item_at fa x, item_at fb y with
          | Some i, Some j => DTwo i j
          | _, _ => DNothing
          end
      | _, _ => DNothing
      end
  end.

(** The id in the output of a diff row with two items: types use the left item's id
    (types.rs:234-247), functions the id of the left item's unit
    (function.rs:271-285), units their own (unit.rs:310-320), variables none
    (variable.rs:83-96). *)
Definition row_id (log_a : id_log) (x : item_id) : option nat :=
  match x with
  | IdNone => None
  | IdUnit ui => Some (id_of log_a (IdUnit ui))
  | IdType ui i => Some (id_of log_a (IdType ui i))
  | IdFunction ui i => Some (id_of log_a (IdUnit ui))
  | IdVariable _ _ => None
  end.
