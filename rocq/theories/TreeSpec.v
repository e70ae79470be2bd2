(** Independent vocabulary for stating properties of section trees: relations on
    the heap only, no reference to the functions under study. *)
From Coq Require Import Ascii String.
From stdpp Require Import base list strings relations.
From Verif Require Import GoBase Ast Content Section.

(** [y]'s Parent field points to [x]. *)
Definition parent_of (h : heap) (x y : nat) : Prop :=
  ∃ s, h !! y = Some s ∧ s_parent s = Some x.

(** [c] is listed in [p]'s Children. *)
Definition child_of (h : heap) (p c : nat) : Prop :=
  ∃ s, h !! p = Some s ∧ c ∈ s_children s.

(** Reflexive-transitive versions: ancestors through Parent pointers, descendants
    through Children lists. *)
Definition ancestor (h : heap) : nat → nat → Prop := rtc (parent_of h).
Definition descendant (h : heap) : nat → nat → Prop := rtc (child_of h).

Definition valid (h : heap) (i : nat) : Prop := i < length h.

(** A consistent forest: Parent pointers go to earlier-allocated sections (so they
    cannot form a cycle), every listed child exists and points back to its
    lister, and no child is listed twice. A section whose Parent does not list it
    is possible (e.g. while it is being evaluated). *)
Record wf (h : heap) : Prop := Wf {
  wf_parent : ∀ i s p, h !! i = Some s → s_parent s = Some p → p < i;
  wf_child : ∀ p s c, h !! p = Some s → c ∈ s_children s →
             ∃ cs, h !! c = Some cs ∧ s_parent cs = Some p;
  wf_nodup : ∀ p s, h !! p = Some s → NoDup (s_children s)
}.

Definition is_top (h : heap) (i : nat) : Prop :=
  ∃ s, h !! i = Some s ∧ s_parent s = None.

(** One-based positions on the path from the top. *)
Inductive position (h : heap) : nat → list nat → Prop :=
| pos_top i : is_top h i → position h i []
| pos_child p ps i k l :
    h !! p = Some ps → s_children ps !! k = Some i →
    position h p l → position h i (l ++ [S k]).

(** ** Pages *)

(** A section gets its own page iff it has no parent or its parent splits. *)
Definition is_page (h : heap) (i : nat) : Prop :=
  ∃ s, h !! i = Some s ∧
    match s_parent s with
    | None => True
    | Some p => ∃ ps, h !! p = Some ps ∧ s_split ps = true
    end.

(** [c] is rendered within its parent [p]. *)
Definition inlined (h : heap) (p c : nat) : Prop :=
  ∃ s, h !! p = Some s ∧ c ∈ s_children s ∧ s_split s = false.

(** [c] has its own page, linked from [p]. *)
Definition split_child (h : heap) (p c : nat) : Prop :=
  ∃ s, h !! p = Some s ∧ c ∈ s_children s ∧ s_split s = true.

(** Depth-first listing of the descendants of [i] whose edges satisfy
    [follow]: [i] first, then the listings of its children in order. *)
Inductive listing (h : heap) (follow : section → bool) : nat → list nat → Prop :=
| listing_node i s l :
    h !! i = Some s →
    listings h follow (if follow s then s_children s else []) l →
    listing h follow i (i :: l)
with listings (h : heap) (follow : section → bool) : list nat → list nat → Prop :=
| listings_nil : listings h follow [] []
| listings_cons c cs l1 l2 :
    listing h follow c l1 → listings h follow cs l2 →
    listings h follow (c :: cs) (l1 ++ l2).
