(** What the text output of a document should be: a list of lines, some of them marked
    as belonging to the old or to the new side only.  Independent of the interpreters
    and of the state of the printer. *)
From Coq Require Import List Arith NArith Bool String.
From Verif Require Import PrintModel.
Import ListNotations.

Inductive line := Blank | Line (indent : nat) (content : text).
Inductive mark := Same | Old | New.

Definition nonempty {A} (l : list A) : bool := match l with [] => false | _ => true end.

(** A label and a value. *)
Definition labelled (label buf : text) : text :=
  match label, buf with
  | [], _ => buf
  | _, [] => label ++ txt ":"
  | _, _ => label ++ txt ": " ++ buf
  end.

Definition instruction_text (address : option N) (mnemonic buf : text) : text :=
  match address with
  | Some a => spaces (3 - List.length (hex a)) ++ hex a ++ txt ":  "
  | None => spaces 6
  end ++
  match mnemonic with
  | [] => spaces 7
  | _ => mnemonic ++ spaces (6 - List.length mnemonic)
  end ++
  match buf with [] => [] | _ => txt " " ++ buf end.

(** The lines of a document, with inlined parts down to [depth]. *)
Fixpoint lines (depth indent : nat) (d : pdoc) : list line :=
  match d with
  | PNil => []
  | PSeq a b => lines depth indent a ++ lines depth indent b
  | PLine label v =>
      match text_value v with [] => [] | buf => [Line indent (labelled label buf)] end
  | PLabel label => [Line indent (labelled label [])]
  | PBreak => [Blank]
  | PTree _ header body | PId _ header body =>
      lines depth indent header ++ lines depth (S indent) body
  | PSection _ label body | PDetail _ label body =>
      match lines depth (S indent) body with
      | [] => []
      | ls => Line indent (labelled label []) :: ls
      end
  | PInline d => match depth with O => [] | S n => lines n indent d end
  | PInstruction address mnemonic v =>
      [Line indent (instruction_text address mnemonic (text_value v))]
  end.

(** A document contains a difference that is visible and not to be ignored. *)
Fixpoint changed (depth : nat) (d : ddoc) : bool :=
  match d with
  | DNil | DLabel _ | DBreak => false
  | DSeq a b => changed depth a || changed depth b
  | DLine _ a b => negb (text_eqb (text_value a) (text_value b))
  | DTree _ header body | DId _ header body => changed depth header || changed depth body
  | DSection _ _ body => changed depth body
  | DInline d => match depth with O => false | S n => changed n d end
  | DDelete d | DAdd d => nonempty (lines depth 0 d)
  | DBlock a b => nonempty (lines depth 0 a) || nonempty (lines depth 0 b)
  | DIfDiff d => changed depth d
  | DIgnore flag d => negb flag && changed depth d
  end.

Definition with_mark (m : mark) (ls : list line) : list (mark * line) := map (pair m) ls.

(** The lines of a comparison. *)
Fixpoint diff_lines (depth indent : nat) (d : ddoc) : list (mark * line) :=
  match d with
  | DNil => []
  | DSeq a b => diff_lines depth indent a ++ diff_lines depth indent b
  | DLine label a b =>
      let old := with_mark Old (lines depth indent (PLine label a)) in
      let new := with_mark New (lines depth indent (PLine label b)) in
      if text_eqb (text_value a) (text_value b)
      then with_mark Same (lines depth indent (PLine label a)) else old ++ new
  | DLabel label => [(Same, Line indent (labelled label []))]
  | DBreak => [(Same, Blank)]
  | DTree _ header body | DId _ header body =>
      diff_lines depth indent header ++ diff_lines depth (S indent) body
  | DSection _ label body =>
      match diff_lines depth (S indent) body with
      | [] => []
      | ls => (Same, Line indent (labelled label [])) :: ls
      end
  | DInline d => match depth with O => [] | S n => diff_lines n indent d end
  | DDelete d => with_mark Old (lines depth indent d)
  | DAdd d => with_mark New (lines depth indent d)
  | DBlock a b => with_mark Old (lines depth indent a) ++ with_mark New (lines depth indent b)
  | DIfDiff d => if changed depth d then diff_lines depth indent d else []
  | DIgnore _ d => diff_lines depth indent d
  end.

(** How lines appear in the output. *)
Definition write_line (before : text) (l : line) : text :=
  match l with
  | Blank => newline
  | Line indent content => before ++ repeat 9%N indent ++ content ++ newline
  end.
Definition mark_text (m : mark) : text :=
  match m with Same => txt "  " | Old => txt "- " | New => txt "+ " end.
Definition write_lines (ls : list line) : text := flat_map (write_line []) ls.
Definition write_marked (ls : list (mark * line)) : text :=
  flat_map (fun p => write_line (mark_text (fst p)) (snd p)) ls.

(** The two sides of a comparison, as documents ... *)
Fixpoint old_side (d : ddoc) : pdoc :=
  match d with
  | DNil | DAdd _ => PNil
  | DSeq a b => PSeq (old_side a) (old_side b)
  | DLine label a _ => PLine label a
  | DLabel label => PLabel label
  | DBreak => PBreak
  | DTree c header body => PTree c (old_side header) (old_side body)
  | DSection c label body => PSection c label (old_side body)
  | DId id header body => PId id (old_side header) (old_side body)
  | DInline d => PInline (old_side d)
  | DDelete d | DBlock d _ => d
  | DIfDiff d | DIgnore _ d => old_side d
  end.
Fixpoint new_side (d : ddoc) : pdoc :=
  match d with
  | DNil | DDelete _ => PNil
  | DSeq a b => PSeq (new_side a) (new_side b)
  | DLine label _ b => PLine label b
  | DLabel label => PLabel label
  | DBreak => PBreak
  | DTree c header body => PTree c (new_side header) (new_side body)
  | DSection c label body => PSection c label (new_side body)
  | DId id header body => PId id (new_side header) (new_side body)
  | DInline d => PInline (new_side d)
  | DAdd d | DBlock _ d => d
  | DIfDiff d | DIgnore _ d => new_side d
  end.
(** ... and as the lines that are not marked as being of the other one. *)
Definition old_lines (ls : list (mark * line)) : list line :=
  map snd (filter (fun p => match fst p with New => false | _ => true end) ls).
Definition new_lines (ls : list (mark * line)) : list line :=
  map snd (filter (fun p => match fst p with Old => false | _ => true end) ls).

(** Properties of documents. *)

(** Nothing is deleted, added or different. *)
Fixpoint identical (depth : nat) (d : ddoc) : Prop :=
  match d with
  | DNil | DLabel _ | DBreak => True
  | DSeq a b | DTree _ a b | DId _ a b => identical depth a /\ identical depth b
  | DLine _ a b => text_value a = text_value b
  | DSection _ _ d | DIfDiff d | DIgnore _ d => identical depth d
  | DInline d => match depth with O => True | S n => identical n d end
  | DDelete _ | DAdd _ => False
  | DBlock a b => lines depth 0 a = [] /\ lines depth 0 b = []
  end.
(** What is deleted or added has some output. *)
Fixpoint visible (depth : nat) (d : ddoc) : Prop :=
  match d with
  | DSeq a b | DTree _ a b | DId _ a b => visible depth a /\ visible depth b
  | DSection _ _ d | DIfDiff d | DIgnore _ d => visible depth d
  | DInline d => match depth with O => True | S n => visible n d end
  | DDelete d | DAdd d => lines depth 0 d <> []
  | _ => True
  end.
(** No part is hidden when it has no differences. *)
Fixpoint unhidden (d : ddoc) : Prop :=
  match d with
  | DSeq a b | DTree _ a b | DId _ a b => unhidden a /\ unhidden b
  | DSection _ _ d | DInline d | DIgnore _ d => unhidden d
  | DIfDiff _ => False
  | _ => True
  end.
(** No differences are ignored. *)
Fixpoint unignored (d : ddoc) : Prop :=
  match d with
  | DSeq a b | DTree _ a b | DId _ a b => unignored a /\ unignored b
  | DSection _ _ d | DInline d | DIfDiff d => unignored d
  | DIgnore flag d => flag = false /\ unignored d
  | _ => True
  end.
(** A section with a label that is shown only if there is something in it has
    something in it on both sides or on neither. *)
Fixpoint sections_agree (depth : nat) (d : ddoc) : Prop :=
  match d with
  | DSeq a b | DTree _ a b | DId _ a b => sections_agree depth a /\ sections_agree depth b
  | DSection _ _ d =>
      sections_agree depth d /\
      (lines depth 0 (old_side d) = [] <-> lines depth 0 (new_side d) = [])
  | DInline d => match depth with O => True | S n => sections_agree n d end
  | DIfDiff d | DIgnore _ d => sections_agree depth d
  | _ => True
  end.

(** Inlined parts that are nested more than [depth] deep are cut off. *)
Fixpoint cut (depth : nat) (d : pdoc) : pdoc :=
  match d with
  | PSeq a b => PSeq (cut depth a) (cut depth b)
  | PTree c a b => PTree c (cut depth a) (cut depth b)
  | PSection c l b => PSection c l (cut depth b)
  | PDetail i l b => PDetail i l (cut depth b)
  | PId i a b => PId i (cut depth a) (cut depth b)
  | PInline d => match depth with O => PNil | S n => cut n d end
  | _ => d
  end.
Fixpoint cut_diff (depth : nat) (d : ddoc) : ddoc :=
  match d with
  | DSeq a b => DSeq (cut_diff depth a) (cut_diff depth b)
  | DTree c a b => DTree c (cut_diff depth a) (cut_diff depth b)
  | DSection c l b => DSection c l (cut_diff depth b)
  | DId i a b => DId i (cut_diff depth a) (cut_diff depth b)
  | DInline d => match depth with O => DNil | S n => cut_diff n d end
  | DDelete d => DDelete (cut depth d)
  | DAdd d => DAdd (cut depth d)
  | DBlock a b => DBlock (cut depth a) (cut depth b)
  | DIfDiff d => DIfDiff (cut_diff depth d)
  | DIgnore f d => DIgnore f (cut_diff depth d)
  | _ => d
  end.

(** The parts under an ignore option are removed. *)
Fixpoint without_ignored (d : ddoc) : ddoc :=
  match d with
  | DSeq a b => DSeq (without_ignored a) (without_ignored b)
  | DTree c a b => DTree c (without_ignored a) (without_ignored b)
  | DSection c l b => DSection c l (without_ignored b)
  | DId i a b => DId i (without_ignored a) (without_ignored b)
  | DInline d => DInline (without_ignored d)
  | DIfDiff d => DIfDiff (without_ignored d)
  | DIgnore flag d => if flag then DNil else without_ignored d
  | _ => d
  end.

(** A line is deleted or added. *)
Definition is_marked (p : mark * line) : bool := match fst p with Same => false | _ => true end.
