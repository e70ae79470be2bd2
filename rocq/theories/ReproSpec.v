(** Ends of a build that a reader would call the same. *)
From Coq Require Import Ascii String.
From stdpp Require Import base strings list.
From Verif Require Import GoBase Ast Content Section Render Evaluate Html Command.

(** Errors that differ at most in the order in which suggestions or definitions
    are listed. *)
Inductive same_error : error → error → Prop :=
| same_refl e : same_error e e
| same_unknown n l l' p : l ≡ₚ l' → same_error (EUnknownTag n l p) (EUnknownTag n l' p)
| same_ambiguous n l l' p : l ≡ₚ l' → same_error (EAmbiguous n l p) (EAmbiguous n l' p).

Inductive same_failure : failure → failure → Prop :=
| same_fail f : same_failure f f
| same_render e e' : same_error e e' → same_failure (FRender (RTag e)) (FRender (RTag e'))
| same_write e e' : same_error e e' → same_failure (FWrite e) (FWrite e').

(** The process is gone: it panicked, or it overflowed its stack. *)
Definition gone {F A} (o : outcome F A) : Prop :=
  match o with Ok _ | Err _ => False | Panic | NoFuel => True end.

Inductive same_end {F A} (R : F → F → Prop) : outcome F A → outcome F A → Prop :=
| same_ok a : same_end R (Ok a) (Ok a)
| same_err e e' : R e e' → same_end R (Err e) (Err e')
| same_gone o o' : gone o → gone o' → same_end R o o'.

(** Worlds that differ at most in the order of map iteration. *)
Definition but_order (W W' : world) : Prop :=
  w_force W = w_force W' ∧ w_partial W = w_partial W' ∧ w_mkdir W = w_mkdir W' ∧
  w_open W = w_open W' ∧ w_short W = w_short W'.

(** Every map iteration visits every entry once. *)
Definition orders (ord : nat → nat → list nat) : Prop := ∀ k n, ord k n ≡ₚ seq 0 n.
