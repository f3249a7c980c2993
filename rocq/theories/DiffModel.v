(** Model of the list merging and list diffing in /repo/main/src/print/mod.rs:
    [MergeIterator] (979-1049), [shortest_path] (1095-1238), [DiffState::list]
    (745-782) and [DiffState::ord_list] (788-810), as sequences of actions. *)
From Coq Require Import List Arith NArith Bool.
From Verif Require Import Base.
Import ListNotations.

(** mod.rs:947-951, [MergeResult]. *)
Inductive merge_result (T U : Type) :=
| MLeft (x : T)
| MRight (y : U)
| MBoth (x : T) (y : U).
Arguments MLeft {T U}.
Arguments MRight {T U}.
Arguments MBoth {T U}.

Section Merge.
  Context {T U : Type}.
  Variable cmp : T -> U -> comparison.

  (** mod.rs:979-990, [MergeIterator]; the iterators are the lists of the items
      they still yield. *)
  Record merge_iter := mkMerge {
    iter_left : list T; iter_right : list U; item_left : option T; item_right : option U }.

  (** [Iterator::next] on a list. *)
  Definition next {A} (l : list A) : option A * list A :=
    match l with [] => (None, []) | x :: r => (Some x, r) end.

  (** mod.rs:998-1008, [MergeIterator::new]. *)
  Definition merge_new (l : list T) (r : list U) : merge_iter :=
    let (x, l') := next l in let (y, r') := next r in mkMerge l' r' x y.

  (** mod.rs:1019-1047, [MergeIterator::next]. *)
  Definition merge_next (s : merge_iter) : option (merge_result T U) * merge_iter :=
    match item_left s, item_right s with
    | Some lft, Some rgt =>
        match cmp lft rgt with
        | Eq =>
            let (x, l') := next (iter_left s) in
            let (y, r') := next (iter_right s) in
            (Some (MBoth lft rgt), mkMerge l' r' x y)
        | Lt =>
            let (x, l') := next (iter_left s) in
            (Some (MLeft lft), mkMerge l' (iter_right s) x (Some rgt))
        | Gt =>
            let (y, r') := next (iter_right s) in
            (Some (MRight rgt), mkMerge (iter_left s) r' (Some lft) y)
        end
    | Some lft, None =>
        let (x, l') := next (iter_left s) in
        (Some (MLeft lft), mkMerge l' (iter_right s) x None)
    | None, Some rgt =>
        let (y, r') := next (iter_right s) in
        (Some (MRight rgt), mkMerge (iter_left s) r' None y)
    | None, None => (None, s)
    end.

  (** A [for] loop over the iterator, with a bound on the number of iterations;
      [None] if the bound is too small. *)
  Fixpoint merge_collect (fuel : nat) (s : merge_iter) : option (list (merge_result T U)) :=
    match fuel with
    | O => None
    | S fuel' =>
        match merge_next s with
        | (None, _) => Some []
        | (Some x, s') => option_map (cons x) (merge_collect fuel' s')
        end
    end.
End Merge.

(** mod.rs:1051-1057, [Direction]. *)
Inductive direction := DNone | DDiagonal | DHorizontal | DVertical.

(** mod.rs:1059-1064, [Node]. *)
Record node := mkNode { n_cost : N; n_from : direction; n_done : bool }.

(** mod.rs:1066-1071, [State]: cost, index1, index2. *)
Definition heap_state := (N * nat * nat)%type.

(** Result of [shortest_path]: a path, a panic (explicit or an index out of
    bounds), or not enough fuel. *)
Inductive sp_result := SPath (p : list direction) | SPanic | SNoFuel.

(** Writing to a vector element. *)
Fixpoint set_nth {A} (l : list A) (i : nat) (x : A) : list A :=
  match l, i with
  | [], _ => []
  | _ :: r, O => x :: r
  | y :: r, S i' => y :: set_nth r i' x
  end.

(** [BinaryHeap::pop] with the order of mod.rs:1073-1078: removes an element of
    least cost.  Which one of several is not specified; [choice] selects it. *)
Fixpoint heap_min (h : list heap_state) : option N :=
  match h with
  | [] => None
  | (c, _, _) :: h' =>
      match heap_min h' with None => Some c | Some m => Some (N.min c m) end
  end.
(** Remove the [k]-th (counting from 0) element with cost [m]; [None] if there are fewer. *)
Fixpoint heap_remove (m : N) (k : nat) (h : list heap_state) : option (heap_state * list heap_state) :=
  match h with
  | [] => None
  | (c, i, j) :: h' =>
      let skip := fun k' =>
        match heap_remove m k' h' with
        | Some (e, h'') => Some (e, (c, i, j) :: h'')
        | None => None
        end in
      if N.eqb c m then match k with O => Some ((c, i, j), h') | S k' => skip k' end else skip k
  end.
Definition heap_pop (choice : nat) (h : list heap_state) : option (heap_state * list heap_state) :=
  match heap_min h with
  | None => None
  | Some m => heap_remove m (choice mod length (filter (fun e => N.eqb (fst (fst e)) m) h)) h
  end.

Section ShortestPath.
  Context {A : Type}.
  Variables item1 item2 : list A.
  Variables step_cost1 step_cost2 : A -> N.
  Variable diff_cost : A -> A -> N.

  (** mod.rs:1108-1110. *)
  Definition len1 : nat := length item1 + 1.
  Definition len2 : nat := length item2 + 1.

  Definition sp_state := (list node * list heap_state)%type.

  (** mod.rs:1122-1139, [push]; [None] is an index out of bounds. *)
  Definition sp_push (st : sp_state) (index index1 index2 : nat) (cost : N) (from : direction)
      : option sp_state :=
    let (nodes, heap) := st in
    match nth_error nodes index with
    | None => None
    | Some n =>
        if N.ltb cost (n_cost n)
        then Some (set_nth nodes index (mkNode cost from (n_done n)), (cost, index1, index2) :: heap)
        else Some st
    end.

  (** mod.rs:1153-1177: reading the path. *)
  Fixpoint sp_read (fuel : nat) (nodes : list node) (index1 index2 : nat) : sp_result :=
    match fuel with
    | O => SNoFuel
    | S fuel' =>
        match nth_error nodes (index1 + index2 * len1) with
        | None => SPanic
        | Some n =>
            let continue := fun i j =>
              match sp_read fuel' nodes i j with
              | SPath p => SPath (n_from n :: p)
              | r => r
              end in
            match n_from n with
            | DNone => SPath []
            | DDiagonal => continue (index1 + 1) (index2 + 1)
            | DHorizontal => continue (index1 + 1) index2
            | DVertical => continue index1 (index2 + 1)
            end
        end
    end.

  (** mod.rs:1185-1199. *)
  Definition sp_vertical (st : sp_state) (index index1 index2 : nat) : option sp_state :=
    if 0 <? index2 then
      let next2 := index2 - 1 in
      let next := index - len1 in
      match nth_error (fst st) next, nth_error (fst st) index, nth_error item2 next2 with
      | Some nn, Some n, Some b =>
          if n_done nn then Some st
          else sp_push st next index1 next2 (add64 (n_cost n) (step_cost2 b)) DVertical
      | _, _, _ => None
      end
    else Some st.

  (** mod.rs:1200-1214. *)
  Definition sp_horizontal (st : sp_state) (index index1 index2 : nat) : option sp_state :=
    if 0 <? index1 then
      let next1 := index1 - 1 in
      let next := index - 1 in
      match nth_error (fst st) next, nth_error (fst st) index, nth_error item1 next1 with
      | Some nn, Some n, Some a =>
          if n_done nn then Some st
          else sp_push st next next1 index2 (add64 (n_cost n) (step_cost1 a)) DHorizontal
      | _, _, _ => None
      end
    else Some st.

  (** mod.rs:1215-1234. *)
  Definition sp_diagonal (st : sp_state) (index index1 index2 : nat) : option sp_state :=
    if (0 <? index1) && (0 <? index2) then
      let next1 := index1 - 1 in
      let next2 := index2 - 1 in
      let next := index - len1 - 1 in
      match nth_error (fst st) next, nth_error (fst st) index,
            nth_error item1 next1, nth_error item2 next2 with
      | Some nn, Some n, Some a, Some b =>
          if n_done nn then Some st
          else if N.ltb (diff_cost a b) (add64 (step_cost1 a) (step_cost2 b))
          then sp_push st next next1 next2 (add64 (n_cost n) (diff_cost a b)) DDiagonal
          else Some st
      | _, _, _, _ => None
      end
    else Some st.

  Definition obind {X Y} (x : option X) (f : X -> option Y) : option Y :=
    match x with Some y => f y | None => None end.

  (** mod.rs:1152-1237: the main loop.  [pick] decides which of several
      cheapest heap elements each [pop] returns. *)
  Fixpoint sp_loop (fuel : nat) (pick : nat -> nat) (st : sp_state) : sp_result :=
    match fuel with
    | O => SNoFuel
    | S fuel' =>
        let (nodes, heap) := st in
        match heap_pop (pick fuel') heap with
        | None => SPanic
        | Some ((_, index1, index2), heap') =>
            if (index1 =? 0) && (index2 =? 0) then sp_read (len1 + len2) nodes 0 0
            else
              let index := index1 + index2 * len1 in
              match nth_error nodes index with
              | None => SPanic
              | Some n =>
                  if n_done n then sp_loop fuel' pick (nodes, heap')
                  else
                    let st1 := (set_nth nodes index (mkNode (n_cost n) (n_from n) true), heap') in
                    match
                      obind (sp_vertical st1 index index1 index2) (fun st2 =>
                      obind (sp_horizontal st2 index index1 index2) (fun st3 =>
                      sp_diagonal st3 index index1 index2))
                    with
                    | None => SPanic
                    | Some st' => sp_loop fuel' pick st'
                    end
              end
        end
    end.

  (** mod.rs:1095-1238, [shortest_path]. *)
  Definition shortest_path (fuel : nat) (pick : nat -> nat) : sp_result :=
    let len := len1 * len2 in
    let nodes := repeat (mkNode u64_max DNone false) len in
    match sp_push (nodes, []) (len - 1) (len1 - 1) (len2 - 1) 0 DNone with
    | None => SPanic
    | Some st => sp_loop fuel pick st
    end.
End ShortestPath.

(** mod.rs:759-780: what [DiffState::list] does with the path.  [MBoth a b] stands
    for [T::diff(a, b)], [MLeft a] for printing [a] as deleted, [MRight b] for
    printing [b] as added. *)
Fixpoint follow_path {A} (path : list direction) (l1 l2 : list A) : list (merge_result A A) :=
  match path with
  | [] => []
  | DNone :: _ => []
  | DDiagonal :: p =>
      match l1, l2 with
      | a :: l1', b :: l2' => MBoth a b :: follow_path p l1' l2'
      | a :: l1', [] => follow_path p l1' []
      | [], b :: l2' => follow_path p [] l2'
      | [], [] => follow_path p [] []
      end
  | DHorizontal :: p =>
      match l1 with a :: l1' => MLeft a :: follow_path p l1' l2 | [] => follow_path p [] l2 end
  | DVertical :: p =>
      match l2 with b :: l2' => MRight b :: follow_path p l1 l2' | [] => follow_path p l1 [] end
  end.

(** mod.rs:745-782, [DiffState::list]. *)
Definition diff_list {A} (l1 l2 : list A) (c1 c2 : A -> N) (dc : A -> A -> N) (fuel : nat)
    (pick : nat -> nat) : option (list (merge_result A A)) :=
  match shortest_path l1 l2 c1 c2 dc fuel pick with
  | SPath p => Some (follow_path p l1 l2)
  | _ => None
  end.
