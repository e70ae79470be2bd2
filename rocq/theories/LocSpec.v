(** Where the errors of a load, and the marks left in a loaded book, point to. *)
From Coq Require Import Ascii String.
From stdpp Require Import base tactics relations strings list.
From Verif Require Import GoBase Ast Content Section Evaluate EvalSpec EvalLoc Paths EvalEnds.
Local Open Scope string_scope.
Local Open Scope list_scope.

Section spec.
  (** [occurs f nd]: the node is part of the parse tree of the file at [f];
      [missing p]: there is no file at [p]; [unread e]: a file does not parse, which
      is told by [e]. *)
  Context (occurs : string → node → Prop) (missing : string → Prop) (unread : error → Prop).
  (** Registered plugins. *)
  Context (registered : string → Prop).

  (** The text a location tells of is the name of a function invoked there. *)
  Definition call_at (fn : string) (l : errloc) : Prop :=
    el_len l = S (String.length fn) ∧ ∃ args, occurs (el_file l) (NInvoke fn args (el_loc l)).

  (** A location of an invocation of the method in the file, or of an invocation
      within its arguments. *)
  Definition placed (f name : string) (l : loc) : Prop :=
    ∃ fn args l0, occurs f (NInvoke fn args l0) ∧ method_name fn = name ∧ (l = l0 ∨ l ∈ flat_map locs args).

  (** An invocation in the file with a number of arguments its method does not take. *)
  Inductive miscounted (f : string) : error → Prop :=
  | miscounted_arity fn args l m : occurs f (NInvoke fn args l) → base_method (method_name fn) = Some m →
      ¬ accepts m (length args) →
      miscounted f (EArity fn (length args) (length (m_in m)) (if m_variadic m then true else false)).

  (** What a method reports, when invoked in the file [f]. *)
  Inductive reports (f : string) : string → error → Prop :=
  | reports_plugin name : ¬ registered name → reports f "UsePlugin" (EUnknownPlugin name)
  | reports_row c : (∀ items o, c ≠ CList items o) → reports f "Table" (ETableRow c)
  | reports_list c : (∀ items o, c ≠ CList items o) → reports f "Definitions" (EDefNotList c)
  | reports_two items o : length items ≠ 2 → reports f "Definitions" (EDefNotTwo (CList items o))
  | reports_section e : miscounted f e → reports f "Section" e
  | reports_missing p : missing (path_join (path_dir f) p) → reports f "IncludeSection" (EStat (path_join (path_dir f) p))
  | reports_included p e : miscounted (path_join (path_dir f) p) e → reports f "IncludeSection" e.

  (** Errors that tell where they arose. *)
  Inductive placed_error : error → Prop :=
  | placed_parse e : unread e → placed_error e
  | placed_undefined fn l : call_at fn l → base_method (method_name fn) = None → placed_error (EUndefined fn l)
  | placed_failed fn e l : call_at fn l → reports (el_file l) (method_name fn) e → placed_error (EFailed fn e l)
  | placed_titles f a b : placed f "Title" a → placed f "Title" b → placed_error (ETitleTwice (ErrLoc f a 6) (ErrLoc f b 6)).

  (** What is told of a reference: its place, and where the tags it might mean are
      defined. *)
  Inductive ref_error : error → Prop :=
  | ref_unknown name similar f l : placed f "Reference" l → ref_error (EUnknownTag name similar (ErrLoc f l 10))
  | ref_ambiguous name defs f l : placed f "Reference" l → 2 ≤ length defs →
      Forall (λ d, el_len d = 0 ∧ (placed (el_file d) "Title" (el_loc d) ∨ placed (el_file d) "Target" (el_loc d))) defs →
      ref_error (EAmbiguous name defs (ErrLoc f l 10)).

  (** The error of loading the file at [f]. *)
  Definition load_error (f : string) (e : error) : Prop :=
    placed_error e ∨ miscounted f e ∨ (missing f ∧ e = EStat f).
End spec.

(** ** Locations left in the contents of a book *)

Inductive mark := MRef (sec : nat) (l : loc) | MTarget (l : loc) | MLazy.

Definition of_option {A B} (f : A → list B) (o : option A) : list B := match o with Some a => f a | None => [] end.

(** The references, targets and lazy contents in a content. *)
Fixpoint marks (c : content) : list mark :=
  match c with
  | CString _ | CSection _ | CToc _ | CImage _ _ => []
  | CLazy _ _ => [MLazy]
  | CSeq l | CPara l | CPre l | CList l _ => flat_map marks l
  | CRef i _ rc _ l => MRef i l :: of_option marks rc
  | CLink c _ | CAux c => marks c
  | CStyled _ _ c ps => marks c ++ flat_map (λ p, match p with (_, o) => of_option marks o end) ps
  | CTarget _ l ti x => MTarget l :: of_option marks ti ++ of_option marks x
  | CTable rows => flat_map (flat_map marks) rows
  | CDefs defs => flat_map (λ p, match p with (s, d) => marks s ++ marks d end) defs
  end.

Section marks.
  Context (occurs : string → node → Prop).

  (** A mark in a section of the file [f]; no content is lazy. *)
  Definition mark_ok (h : heap) (f : string) (m : mark) : Prop :=
    match m with
    | MRef i l => in_file h i f ∧ placed occurs f "Reference" l
    | MTarget l => placed occurs f "Target" l
    | MLazy => False
    end.
  Definition marked (h : heap) (f : string) (c : content) : Prop := Forall (mark_ok h f) (marks c).
  Definition marked_option (h : heap) (f : string) (o : option content) : Prop :=
    match o with Some c => marked h f c | None => True end.

  Definition tag_ok (h : heap) (f : string) (i : nat) (t : tag) : Prop :=
    t_section t = Some i ∧ (placed occurs f "Title" (t_loc t) ∨ placed occurs f "Target" (t_loc t)) ∧
    marked_option h f (t_title t) ∧ marked_option h f (t_content t).

  Definition section_ok (h : heap) (f : string) (i : nat) (x : section) : Prop :=
    marked h f (s_title x) ∧ marked h f (s_body x) ∧
    Forall (λ p : string * option content, marked_option h f (snd p)) (s_partials x) ∧
    Forall (tag_ok h f i) (s_tags x) ∧
    (s_title x ≠ CString "" → placed occurs f "Title" (s_titleloc x)) ∧
    FBase ∈ s_factories x.

  (** Every section belongs to a file, and its marks lead into that file. *)
  Definition heap_ok (h : heap) : Prop := ∀ i x, h !! i = Some x → ∃ f, in_file h i f ∧ section_ok h f i x.
End marks.
