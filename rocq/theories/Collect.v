(** stages/collect.go: collection of targets, and the complete load. *)
From Coq Require Import Ascii String.
From stdpp Require Import base strings list.
From Verif Require Import GoBase Ast Content Section Evaluate.

(** Go map iteration order is chosen by the runtime: [ord k n] is the order (a
    permutation of [0..n-1]) used by the [k]-th map iteration over [n] entries.
    The state is the heap and the number of map iterations so far. *)
Definition cst : Type := heap * nat.
Definition CM : Type := cst → outcome error cst.

Definition cskip : CM := λ s, Ok s.
Definition cpanic : CM := λ _, Panic.

(** [for _, x := range l { err := visit x; if err != nil { return err } }]. *)
Fixpoint cseq (l : list CM) : CM :=
  match l with
  | [] => cskip
  | m :: r => λ s, obind (cseq r) (m s)
  end.

Section collect.
  Context (ord : nat → nat → list nat).

  (** [range] over a map whose entries are visited by the given actions. *)
  Definition map_range (l : list CM) : CM := λ s,
    cseq (omap (λ i, l !! i) (ord (snd s) (length l))) (fst s, S (snd s)).

  (** [jump cur con]: visiting section [con] with the collector of [cur]. *)
  Context (jump : nat → nat → CM).

  (** stages/collect.go:12-55, 92-179; Aux and Link embed resp. visit their
      content; [cur] is collect.Section. *)
  Fixpoint visit (cur : nat) (c : content) : CM :=
    match c with
    | CString _ => cskip
    | CSeq l | CPara l | CPre l => cseq (map (visit cur) l)
    | CRef _ _ _ _ _ => cskip
    | CSection con => jump cur con
    | CToc _ => cskip
    | CStyled _ _ x ps =>
      cseq [visit cur x;
            map_range (map (λ p, match p with
                                 | (_, None) => cskip
                                 | (_, Some v) => visit cur v
                                 end) ps)]
    | CImage _ _ => cskip
    | CTarget t l ti x => λ s,
      match fst s !! cur with
      | None => Panic
      | Some _ => Ok (upd (fst s) cur (set_tag_anchored cur t ti l x t), snd s)
      end
    | CList l _ => cseq (map (visit cur) l)
    | CLink x _ => visit cur x
    | CTable rows => cseq (map (λ row, cseq (map (visit cur) row)) rows)
    | CDefs defs => cseq (map (λ p, match p with (s, d) => cseq [visit cur s; visit cur d] end) defs)
    | CLazy _ _ => cskip
    | CAux x => visit cur x
    end.

  (** stages/collect.go:59-89 [VisitSection]: a nil partial is dereferenced. *)
  Definition visit_section (cur con : nat) : CM := λ s,
    match fst s !! con with
    | None => Panic
    | Some x =>
      cseq ([visit cur (s_title x);
             visit cur (s_body x);
             map_range (map (λ p, match snd p with None => cpanic | Some v => visit cur v end) (s_partials x))]
            ++ map (λ c, jump c c) (s_children x)) s
    end.
End collect.

(** [n] bounds the nesting of sections. *)
Fixpoint collect (ord : nat → nat → list nat) (n : nat) (cur con : nat) : CM :=
  match n with
  | 0 => λ _, NoFuel
  | S n => visit_section ord (collect ord n) cur con
  end.

(** load/processor.go:185-196 [runStages] (the Resolve stage no longer exists). *)
Definition run_stages (ord : nat → nat → list nat) (i : nat) : M nat := λ s,
  match collect ord (fuel_of (st_heap s)) i i (st_heap s, 0) with
  | Ok (h, _) => (St h (st_cache s), Ok i)
  | Err e => (s, Err e)
  | Panic => (s, Panic)
  | NoFuel => (s, NoFuel)
  end.

(** load/processor.go:36-39, 46-53 [LoadFile], [LoadFileIn] without parent. *)
Definition load (E : env) (ord : nat → nat → list nat) (n : nat) (path : string) (fs : list factory) : M nat :=
  i <- load_file E n path fs;; run_stages ord i.

(** load/processor.go:46-53 [LoadFileIn]: the new section's parent is given, but
    the parent does not list it. *)
Definition load_in (E : env) (ord : nat → nat → list nat) (n : nat) (parent : option nat) (path : string)
    (fs : list factory) : M nat :=
  i <- evaluate_file E (eval E n) parent path fs;; run_stages ord i.
