(** A section that is loaded below a book (Book.v) without being part of it. *)
From Coq Require Import Ascii String.
From stdpp Require Import base strings list.
From Verif Require Import GoBase Book.
Local Open Scope string_scope. Local Open Scope list_scope.

(** The book [b] with one more section at the end. *)
Definition with_last (b c : sec) : sec :=
  match b with Sec title tags split omit body subs => Sec title tags split omit body (subs ++ [c]) end.

(** The place of that section. *)
Definition last_place (b c : sec) : place := sub_place (top_place b) b (S (length (subs_of b))) c.
