(** Books that are put on one page (Book.v). *)
From Coq Require Import Ascii String.
From stdpp Require Import base strings list.
From Verif Require Import GoBase Book.
Local Open Scope string_scope. Local Open Scope list_scope.

(** [b] with all its sections on its page. *)
Definition keep_cut (split : cut) : cut := match split with Whole => Whole | _ => Fresh end.
Fixpoint in_one (b : sec) : sec :=
  match b with Sec title tags split omit body subs => Sec title tags (keep_cut split) omit body (map in_one subs) end.

(** The sections of a book in the order of its text. *)
Fixpoint sections (pl : place) (b : sec) : list (place * sec) :=
  match b with Sec _ _ _ _ _ subs => (pl, b) :: concat (mapi (λ k c, sections (sub_place pl b k c) c) 1 subs) end.

(** What a section looks like: its number, how large its header is, its title and its
    main tag, by which it can be found on its page. *)
Definition looks (q : place * sec) : list nat * nat * list span * string :=
  (pl_number (fst q), pl_depth (fst q), title_of (snd q), main_tag (snd q)).

(** One text in another. *)
Definition within (x y : string) : Prop := ∃ before after, y = before +:+ x +:+ after.
