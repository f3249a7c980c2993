(** What a web page is made of and how a browser completes it; independent of the server.

    The script of the page (html.rs:92-121) replaces the content of the list of an entry that is
    marked as lazy by the response for its id, and removes the mark.  Whether a list is displayed
    is not part of this. *)
From Coq Require Import List NArith Bool String Relations.
From Verif Require Import Base FilterSpec PrintModel.
Import ListNotations.
Local Open Scope string_scope.

(** ** Paths *)

(** The end of a path, or more parts. *)
Definition ends (rest : string) : Prop := rest = "" \/ exists r, rest = "/" ++ r.
Definition one_part (s : string) : Prop := forall a b, s <> a ++ "/" ++ b.
Definition id_text (s : string) (n : N) : Prop := numeral s n /\ (n <= u64_max)%N.

(** What can be asked for. *)
Inductive request := Whole | Item (n : N) | Detail (n : N) (d : string) | Parent (n : N).

(** The paths of a page for one file. *)
Inductive asks : string -> request -> Prop :=
| asks_nothing : asks "" Whole
| asks_whole : forall rest, ends rest -> asks ("/" ++ rest) Whole
| asks_item : forall s n, id_text s n -> asks ("/id/" ++ s) (Item n)
| asks_parent : forall s n rest, id_text s n -> ends rest ->
    asks ("/id/" ++ s ++ "/parent" ++ rest) (Parent n)
| asks_detail : forall s n d rest, id_text s n -> one_part d -> d <> "parent" -> ends rest ->
    asks ("/id/" ++ s ++ "/" ++ d ++ rest) (Detail n d).

(** Those of a comparison, and those of the report of sizes. *)
Inductive asks_diff : string -> request -> Prop :=
| asks_diff_nothing : asks_diff "" Whole
| asks_diff_whole : forall rest, ends rest -> asks_diff ("/" ++ rest) Whole
| asks_diff_item : forall s n, id_text s n -> asks_diff ("/id/" ++ s) (Item n).
Inductive asks_sizes : string -> request -> Prop :=
| asks_sizes_nothing : asks_sizes "" Whole
| asks_sizes_whole : forall rest, ends rest -> asks_sizes ("/" ++ rest) Whole
| asks_sizes_item : forall s n rest, id_text s n -> ends rest -> asks_sizes ("/id/" ++ s ++ rest) (Item n).

(** ** Loading *)

Local Open Scope list_scope.

Definition contains (t part : text) : Prop := exists a b, t = a ++ part ++ b.

(** The entry with the id [n] and the title [h], before and after its content [c] is loaded. *)
Definition number (n : nat) : text := dec (N.of_nat n).
Definition lazy_mark : text := txt "<li class=""treebranch lazy""".
Definition lazy_entry (n : nat) (h : text) : text :=
  lazy_mark ++ txt " id=""" ++ number n ++ txt """>" ++ h ++
  txt "<ul style=""display:none"">" ++ newline ++ txt "</ul></li>" ++ newline.
Definition loaded_entry (n : nat) (h c : text) : text :=
  txt "<li class=""treebranch"" id=""" ++ number n ++ txt """>" ++ h ++
  txt "<ul style=""display:none"">" ++ newline ++ c ++ txt "</ul></li>" ++ newline.

(** The script finds the list of an entry by looking for the first one within it, which must not be
    in an entry within it. *)
Definition title_text (h : text) : Prop := ~ contains h (txt "<li") /\ ~ contains h (txt "<ul").

(** One entry of a page is loaded; [response] is what the server sends. *)
Inductive loads (response : nat -> option text) : text -> text -> Prop :=
| loads_entry : forall before after n h c, title_text h -> response n = Some c ->
    loads response (before ++ lazy_entry n h ++ after) (before ++ loaded_entry n h c ++ after).
Definition completes (response : nat -> option text) : text -> text -> Prop :=
  clos_refl_trans_1n _ (loads response).
(** There is nothing left to load. *)
Definition complete (page : text) : Prop := ~ contains page lazy_mark.

(** ** Instructions *)

(** The part of the entry of a function that leads to its instructions, and the list of the
    instructions [c] on a page that cannot load anything. *)
Definition code_link : text :=
  txt "<li class=""detail"" data-detail=""code""><span>instructions:</span></li>" ++ newline.
Definition code_list (c : text) : text :=
  match c with
  | [] => []
  | _ => txt "<li class=""treebranch""><span>instructions:</span><ul style=""display:none"">" ++ newline ++ c ++
         txt "</ul></li>" ++ newline
  end.
(** The first page has such a link, the last part of the entry with the id [n], instead of every
    list of instructions of the second; [code] is what the server sends for the instructions.  The
    script (html.rs:130-142) takes the id from the closest entry around the link that has one. *)
Definition with_id : text := txt "<li class=""treebranch"" id=".
Inductive linked (code : nat -> option text) : text -> text -> Prop :=
| linked_end : linked code [] []
| linked_same : forall a s t, linked code s t -> linked code (a ++ s) (a ++ t)
| linked_code : forall n h x c s t,
    title_text h -> ~ contains x with_id -> code n = Some c -> linked code s t ->
    linked code (loaded_entry n h (x ++ code_link) ++ s) (loaded_entry n h (x ++ code_list c) ++ t).
