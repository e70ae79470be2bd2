(** A section of a book (Book.v) on its own. *)
From Coq Require Import Ascii String.
From stdpp Require Import base strings list.
From Verif Require Import GoBase Book BookPlain.
Local Open Scope string_scope. Local Open Scope list_scope.

(** The tags of a book in the order of its text, with the sections they are in: those
    of a section itself, then its anchors, then those of its subsections. *)
Fixpoint marks (pl : place) (b : sec) : list (string * (place * sec)) :=
  match b with
  | Sec _ _ _ _ body subs =>
      map (λ t, (t, (pl, b))) (tag_names b ++ map fst (flat_map piece_anchors body)) ++
      concat (mapi (λ k c, marks (sub_place pl b k c) c) 1 subs)
  end.
(** The sections with a tag. *)
Definition tagged (b : sec) (tag : string) : list (place * sec) :=
  map snd (List.filter (λ m, String.eqb (fst m) tag) (marks (top_place b) b)).

(** The pages from a section [c] downwards; its own if it has one. *)
Definition pages_from (b : sec) (q : place * sec) : list (string * string) :=
  (if pl_own (fst q) then [(file_name (snd q), page_of (site b) (fst q) (snd q))] else []) ++ pages_below (site b) (fst q) (snd q).
Definition refs_from (q : place * sec) : list (list string) :=
  (if pl_own (fst q) then [page_refs (snd q)] else []) ++ refs_below (snd q).
(** As plain text, with what is missing. *)
Definition plain_from (ext : string) (q : place * sec) : list (string * string * list string) :=
  (if pl_own (fst q) then [(plain_file ext (snd q), page_plain (pl_number (fst q)) (snd q), sec_lacks (snd q))] else []) ++
  plain_below ext (pl_number (fst q)) (snd q).
