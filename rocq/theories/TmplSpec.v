(** What it means that two ways of rendering agree. *)
From Coq Require Import String.
From stdpp Require Import base strings list.
From Verif Require Import GoBase Section Render Html.

(** Errors about references and unforced contents are the same; the others, which
    are about templates that are missing or were given data they are not meant for,
    are not told apart. *)
Definition like_err (e f : rerr) : Prop :=
  match e, f with
  | RTag x, RTag y => x = y
  | RLazy, RLazy => True
  | (RNil | RTemplate _), (RNil | RTemplate _) => True
  | _, _ => False
  end.

(** The same output, or both fail. *)
Definition like {A} (a b : outcome rerr A) : Prop :=
  match a, b with
  | Ok x, Ok y => x = y
  | Err e, Err f => like_err e f
  | Panic, Panic | NoFuel, NoFuel => True
  | _, _ => False
  end.

(** Both end, alike, or neither ends, where [f n] and [g n] are the results of
    going at most [n] deep. *)
Definition same_results (f g : nat → rendered) : Prop :=
  (∀ n, f n ≠ NoFuel → ∃ k, ∀ m, k ≤ m → like (f n) (g m)) ∧
  (∀ n, g n ≠ NoFuel → ∃ k, ∀ m, k ≤ m → like (g n) (f m)).
