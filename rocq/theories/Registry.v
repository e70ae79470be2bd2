(** plugin.go:17-40: the global plugin registry, a Go map. *)
From Coq Require Import Ascii String.
From stdpp Require Import base strings list.
From Verif Require Import GoBase Ast Content Section.

Definition registry := list (string * factory).

(** plugin.go:30-33 [RegisterPlugin]. *)
Definition register (name : string) (f : factory) (r : registry) : registry := assoc_set name f r.

(** plugin.go:36-39 [LookupPlugin]: [None] is [found = false]. *)
Definition lookup_plugin (name : string) (r : registry) : option factory := assoc_get name r.

(** A history of registrations, oldest first. *)
Definition register_all (hist : list (string * factory)) : registry :=
  fold_left (λ r p, register (fst p) (snd p) r) hist [].
