(** What the template files of a directory define, told without reading them one by
    one. *)
From Coq Require Import Ascii String.
From stdpp Require Import base strings list.
From Verif Require Import GoBase Templates Tmpl TmplWritten.
Local Open Scope string_scope. Local Open Scope list_scope.

(** A body of nothing but blanks (and comments, which are not modelled). *)
Definition blank_body (t : list node) : Prop := ∀ x, x ∈ t → ∃ s, x = NText s ∧ blanks s.

(** The bodies with a name. *)
Definition bodies (n : string) (l : list (string * list node)) : list (list node) :=
  omap (λ d : string * list node, if String.eqb d.1 n then Some d.2 else None) l.

(** Of the bodies a text has for a name, the one that is not blank is taken; if all
    are blank, the last one. *)
Inductive taken : list (list node) → list node → Prop :=
| taken_body a t z : Forall blank_body a → ¬ blank_body t → Forall blank_body z → taken (a ++ t :: z) t
| taken_blank a t : Forall blank_body (a ++ [t]) → taken (a ++ [t]) t.
(** There must be no two that are not blank. *)
Definition twice (bs : list (list node)) : Prop :=
  ∃ a t b u c, bs = a ++ t :: b ++ u :: c ∧ ¬ blank_body t ∧ ¬ blank_body u.

(** The file [name] with text [s] has the body [t] for [n]. Line feeds at its end
    are no part of it. *)
Definition without_end (s u : string) : Prop :=
  ∃ z, s = u +:+ z ∧ (∀ c, c ∈ list_ascii_of_string z → c = "010"%char) ∧ (∀ v, u ≠ v +:+ String "010" "").
Definition gives (name s : string) (n : string) (t : list node) : Prop :=
  ∃ u ns ds, without_end s u ∧ template_text ns ds u ∧ taken (bodies n (ds ++ [(name, ns)])) t.

(** Of the bodies that files have for a name, the last one that is not blank is
    taken. Blank ones replace nothing. *)
Inductive stays (old : option (list node)) : list (list node) → option (list node) → Prop :=
| stays_body a t z : ¬ blank_body t → Forall blank_body z → stays old (a ++ t :: z) (Some t)
| stays_old bs : Forall blank_body bs → old ≠ None → stays old bs old
| stays_none : old = None → stays old [] None
| stays_first t z : old = None → Forall blank_body (t :: z) → stays old (t :: z) (Some t).

(** The bodies the files of a directory have for a name, in order. *)
Inductive given (n : string) : dir string → list (list node) → Prop :=
| given_nil : given n [] []
| given_body f c t d bs : f_read f = Some c → gives (f_name f) c n t → given n d bs → given n (f :: d) (t :: bs)
| given_none f d bs : (∀ c t, f_read f = Some c → ¬ gives (f_name f) c n t) → given n d bs → given n (f :: d) bs.
(** A file that can be read, is written as it should be, and has no two bodies for a
    name. *)
Definition proper (f : file string) : Prop :=
  ∃ c u ns ds, f_read f = Some c ∧ without_end c u ∧ template_text ns ds u ∧ ∀ n, ¬ twice (bodies n (ds ++ [(f_name f, ns)])).
