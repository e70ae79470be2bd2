(** Books in several files: a subsection is either written where it belongs or in a
    file of its own, which is named there. *)
From Coq Require Import Ascii String.
From stdpp Require Import base list strings.
From Verif Require Import GoBase Ast Grammar ParseSpec Section Book.
Local Open Scope string_scope. Local Open Scope list_scope.

(** The paragraphs of a document. *)
Definition tree := list (list (list node)).

(** A section with the paragraphs that stand for its subsections. *)
Definition sec_top (single : bool) (b : sec) (subs : tree) : tree :=
  match b with
  | Sec title tags split omit body _ =>
      [title_tree title tags] ++
      (if single then [[[call "single-page" []]]] else []) ++
      (if cut_fresh split then [[[call "split-sections" []]]] else []) ++
      (if omit then [[[call "omit-children-from-table-of-contents" []]]] else []) ++
      map piece_tree body ++ subs
  end.

(** Where a file named [name] in the file [path] is. *)
Definition beside (path name : string) : string := path_join (path_dir path) name.

Section laid.
  (** What the files hold. *)
  Context (holds : string → tree → Prop).

  (** [lays p path b t]: with paragraphs [t], in the file [path], section [b] is
      written; [p]: it is below one that says \single-page. *)
  Inductive lays : bool → string → sec → tree → Prop :=
  | lays_sec p single path b ts : (is_fresh b = true → is_split b = negb (p || single)) → lays_subs (p || single) path (subs_of b) ts →
      lays p path b (sec_top single b ts)
  with lays_subs : bool → string → list sec → tree → Prop :=
  | lays_none p path : lays_subs p path [] []
  | lays_here p path c l t ts : lays p path c t → lays_subs p path l ts →
      lays_subs p path (c :: l) ([[call "section" [NSeq (map NPara t)]]] :: ts)
  | lays_there p path name c l t ts : holds (beside path name) t → lays p (beside path name) c t → lays_subs p path l ts →
      lays_subs p path (c :: l) ([[call "include-section" [NSeq [NString name]]]] :: ts).
End laid.
Notation laid holds := (lays holds false).
Scheme lays_mut := Minimality for lays Sort Prop with lays_subs_mut := Minimality for lays_subs Sort Prop.
Combined Scheme lays_both from lays_mut, lays_subs_mut.

(** The files on a disk, with their times. *)
Definition on_disk (D : string → option (nat * string)) (path : string) (t : tree) : Prop :=
  ∃ mt d, D path = Some (mt, d) ∧ document t d ∧ valid_utf8 d.

(** The book [b] begins in the file [path]. *)
Definition book_at (D : string → option (nat * string)) (path : string) (b : sec) : Prop :=
  ∃ t, on_disk D path t ∧ laid (on_disk D) path b t.
(** The same for a section below one that says \single-page ([p]), or not; and what the
    top of a book says ([single]). *)
Definition part_at (D : string → option (nat * string)) (p : bool) (path : string) (b : sec) : Prop :=
  ∃ t, on_disk D path t ∧ lays (on_disk D) p path b t.
Definition book_top (D : string → option (nat * string)) (path : string) (single : bool) (b : sec) : Prop :=
  ∃ ts, on_disk D path (sec_top single b ts) ∧ (is_fresh b = true → is_split b = negb single) ∧ lays_subs (on_disk D) single path (subs_of b) ts.
(** The book [b] begins in the file [path], and [c] is in the file [path'], to be loaded
    below it. *)
Definition book_under (D : string → option (nat * string)) (path : string) (b : sec) (path' : string) (c : sec) : Prop :=
  ∃ single, book_top D path single b ∧ part_at D single path' c.
