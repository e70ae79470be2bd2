(** What the functions of the base plugin are for: the content they stand for and
    the fields of their section they change, by the names used in documents. *)
From Coq Require Import Ascii String.
From stdpp Require Import base strings list.
From Verif Require Import GoBase Ast Content Section TreeSpec Evaluate.
Local Open Scope string_scope.
Local Open Scope list_scope.

(** ** Changes of one section *)

Inductive field :=
| KPath | KTitle | KBody | KTitleLoc | KPrimary | KTags | KParent | KChildren | KStyle | KPartials
| KSplit | KPrevent | KReset | KOmit | KFactories | KLoc | KInvLoc.

Definition same (f : field) (x y : section) : Prop :=
  match f with
  | KPath => s_path x = s_path y | KTitle => s_title x = s_title y | KBody => s_body x = s_body y
  | KTitleLoc => s_titleloc x = s_titleloc y | KPrimary => s_primary x = s_primary y | KTags => s_tags x = s_tags y
  | KParent => s_parent x = s_parent y | KChildren => s_children x = s_children y | KStyle => s_style x = s_style y
  | KPartials => s_partials x = s_partials y | KSplit => s_split x = s_split y | KPrevent => s_prevent x = s_prevent y
  | KReset => s_reset x = s_reset y | KOmit => s_omit x = s_omit y | KFactories => s_factories x = s_factories y
  | KLoc => s_loc x = s_loc y | KInvLoc => s_invloc x = s_invloc y
  end.

(** Nothing changes but section [self], of which only the given fields, and those
    as told by [P]. *)
Definition changes (self : nat) (fields : list field) (P : section → section → Prop) (s s' : st) : Prop :=
  ∃ x x', st_heap s !! self = Some x ∧ st_heap s' = <[self := x']> (st_heap s) ∧ st_cache s' = st_cache s ∧
    (∀ f, f ∉ fields → same f x x') ∧ P x x'.

(** ** The functions *)

Definition con (c : content) : argval := ACon (Some c).

(** The functions that set a style, and which. *)
Definition style_of : list (string * string) :=
  [("code", "verbatim"); ("italic", "italic"); ("bold", "bold"); ("larger", "larger"); ("smaller", "smaller");
   ("strike", "strike"); ("superscript", "superscript"); ("subscript", "subscript"); ("inset", "inset"); ("aside", "aside")].

(** [makes self l fn argv c]: called from section [self], whose InvokeLocation is
    [l], [fn] stands for [c]. *)
Inductive makes (self : nat) (l : loc) : string → list argval → content → Prop :=
| makes_styled fn style c : (fn, style) ∈ style_of → makes self l fn [con c] (CStyled style false c [])
| makes_list cs : makes self l "list" (map con cs) (CList cs false)
| makes_ordered cs : makes self l "ordered-list" (map con cs) (CList cs true)
| makes_row cs : makes self l "table-row" (map con cs) (CList cs false)
| makes_definition a b : makes self l "definition" [con a; con b] (CList [a; b] false)
| makes_table rows rs : Forall2 (λ r items, ∃ o, r = CList items o) rows rs →
    makes self l "table" (map con rows) (CTable rs)
| makes_definitions items ps : Forall2 (λ i p, ∃ o, i = CList [fst p; snd p] o) items ps →
    makes self l "definitions" (map con items) (CDefs ps)
| makes_link c t : makes self l "link" [con c; AStr t] (CLink c t)
| makes_image p : makes self l "image" [AStr p] (CImage p "")
| makes_described p d more : makes self l "image" (AStr p :: AStr d :: map AStr more) (CImage p d)
| makes_reference t : makes self l "reference" [AStr t] (CRef self t None false l)
| makes_shown t c more : makes self l "reference" (AStr t :: con c :: map con more) (CRef self t (Some c) false l)
| makes_target t : makes self l "target" [AStr t] (CTarget t l (Some (CString t)) None)
| makes_titled t c : makes self l "target" [AStr t; con c] (CTarget t l (Some c) None)
| makes_full t c d : makes self l "target" [AStr t; con c; con d] (CTarget t l (Some c) (Some d))
| makes_many t a b c more : makes self l "target" (AStr t :: map con (a :: b :: c :: more)) (CTarget t l (Some (CString t)) None)
| makes_toc : makes self l "table-of-contents" [] (CToc self)
| makes_aux c : makes self l "aux" [con c] (CAux c).

(** The tags of a title: those given, or one from its text. *)
Definition tags_of (E : env) (h : heap) (title : content) (given names : list string) : Prop :=
  match given with
  | [] => ∃ t text, strip_aux title = Some t ∧ str E h t = Ok text ∧ names = [slug text]
  | _ => names = given
  end.

Definition prevented (h : heap) (self : nat) : Prop :=
  ∃ j y, ancestor h j self ∧ h !! j = Some y ∧ s_prevent y = true.

(** [sets E self fn argv s s']: [fn] changes the state from [s] to [s']. *)
Inductive sets (E : env) (self : nat) : string → list argval → st → st → Prop :=
| sets_style name s s' : changes self [KStyle] (λ _ x', s_style x' = name) s s' →
    sets E self "styled" [AStr name] s s'
| sets_title title given names s s' : tags_of E (st_heap s) title given names →
    changes self [KTitle; KTitleLoc; KPrimary; KTags] (λ x x', s_title x = CString "" ∧
      s_title x' = title ∧ s_titleloc x' = s_invloc x ∧
      s_tags x' = map (λ n, Tag n (Some title) (Some self) "" None (s_invloc x)) names ∧
      head (s_tags x') = Some (s_primary x')) s s' →
    sets E self "title" (con title :: map AStr given) s s'
| sets_single s s' : changes self [KPrevent] (λ _ x', s_prevent x' = true) s s' →
    sets E self "single-page" [] s s'
| sets_omit s s' : changes self [KOmit] (λ _ x', s_omit x' = true) s s' →
    sets E self "omit-children-from-table-of-contents" [] s s'
| sets_split s s' : ¬ prevented (st_heap s) self →
    changes self [KReset; KSplit] (λ _ x', s_reset x' = true ∧ s_split x' = true) s s' →
    sets E self "split-sections" [] s s'
| sets_no_split s s' : prevented (st_heap s) self →
    changes self [KReset] (λ _ x', s_reset x' = true) s s' →
    sets E self "split-sections" [] s s'
| sets_partial name c s s' :
    changes self [KPartials] (λ x x', partial name x' = Some c ∧ ∀ n, n ≠ name → partial n x' = partial n x) s s' →
    sets E self "set-partial" [AStr name; con c] s s'
| sets_plugin name f s s' : e_registry E name = Some f →
    changes self [KFactories] (λ x x', s_factories x' = s_factories x ++ [f]) s s' →
    sets E self "use-plugin" [AStr name] s s'.

(** [rejects E self fn argv s e]: [fn] returns the error [e]. *)
Inductive rejects (E : env) (self : nat) : string → list argval → st → error → Prop :=
| rejects_row a row b s : Forall (λ r, ∃ items o, r = CList items o) a → (∀ items o, row ≠ CList items o) →
    rejects E self "table" (map con (a ++ row :: b)) s (ETableRow row)
| rejects_item a item b s : Forall (λ r, ∃ x y o, r = CList [x; y] o) a → (∀ items o, item ≠ CList items o) →
    rejects E self "definitions" (map con (a ++ item :: b)) s (EDefNotList item)
| rejects_items a items o b s : Forall (λ r, ∃ x y o, r = CList [x; y] o) a → length items ≠ 2 →
    rejects E self "definitions" (map con (a ++ CList items o :: b)) s (EDefNotTwo (CList items o))
| rejects_plugin name s : e_registry E name = None → rejects E self "use-plugin" [AStr name] s (EUnknownPlugin name)
| rejects_title title given s x f : st_heap s !! self = Some x → s_title x ≠ CString "" →
    file_path (st_heap s) self = Some f →
    rejects E self "title" (con title :: map AStr given) s
      (ETitleTwice (ErrLoc f (s_titleloc x) 6) (ErrLoc f (s_invloc x) 6)).

(** The functions above; the base plugin has two more, [\section] and
    [\include-section]. *)
Definition simple_functions : list string :=
  map fst style_of ++
  ["list"; "ordered-list"; "table-row"; "definition"; "table"; "definitions"; "link"; "image"; "reference"; "target";
   "table-of-contents"; "aux"; "styled"; "title"; "single-page"; "omit-children-from-table-of-contents";
   "split-sections"; "set-partial"; "use-plugin"].
