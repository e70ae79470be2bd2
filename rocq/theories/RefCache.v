(** reference.go:29-41,90-160: the cached [tag] field of a Reference, as a state
    machine. The heap (and the global AllowBrokenReferences) may change
    arbitrarily between calls. *)
From Coq Require Import Ascii String.
From stdpp Require Import base list strings.
From Verif Require Import GoBase Ast Content Section.

(** The immutable fields of a Reference that resolution reads. *)
Record refcell := RefCell {
  rc_section : nat;
  rc_name : string;
  rc_opt : bool;
  rc_loc : loc;
  rc_tag : option tag     (* reference.go:40, nil until resolved *)
}.

(** reference.go:90-114 [Tag], with the assignment of reference.go:122-124. *)
Definition ref_step (similar : string → string → bool) (broken : bool) (h : heap) (r : refcell)
    : refcell * outcome error (option tag) :=
  match rc_tag r with
  | Some t => (r, Ok (Some t))
  | None =>
    match resolve similar h (rc_section r) (rc_name r) (rc_opt r) (rc_loc r) with
    | Ok (Some t) => (RefCell (rc_section r) (rc_name r) (rc_opt r) (rc_loc r) (Some t), Ok (Some t))
    | Ok None => (r, Ok None)
    | Err e =>
      (r, if broken then Ok (Some (broken_tag (rc_section r) (rc_name r) (rc_loc r))) else Err e)
    | Panic => (r, Panic)
    | NoFuel => (r, NoFuel)
    end
  end.

(** A history of calls: the heap and the global flag at each call. *)
Fixpoint ref_run (similar : string → string → bool) (hist : list (bool * heap)) (r : refcell)
    : refcell * list (outcome error (option tag)) :=
  match hist with
  | [] => (r, [])
  | (b, h) :: rest =>
    let '(r1, o) := ref_step similar b h r in
    let '(r2, os) := ref_run similar rest r1 in
    (r2, o :: os)
  end.
