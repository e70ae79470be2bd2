(** What the functions of the documentation's plugins should do. *)
From Coq Require Import Ascii String NArith.
From stdpp Require Import base list strings.
From Verif Require Import GoBase Ast Section Content Evaluate.
Local Open Scope string_scope. Local Open Scope list_scope.

(** ** Cutting out what an expression matches *)

Inductive piece := Plain (s : string) | Hit (s : string).
(** A byte in front. *)
Definition push (c : ascii) (ps : list piece) : list piece :=
  match ps with Plain s :: ps => Plain (String c s) :: ps | _ => Plain (String c "") :: ps end.
(** [hit m z]: the expression matches [m] when [z] follows. The first match is cut out,
    then the first in what follows. *)
Inductive cuts (hit : string → string → Prop) : string → list piece → Prop :=
| cut_nil : cuts hit "" []
| cut_skip c s ps : (∀ m z, String c s = m +:+ z → ¬ hit m z) → cuts hit s ps → cuts hit (String c s) (push c ps)
| cut_hit m z ps : hit m z → cuts hit z ps → cuts hit (m +:+ z) (Hit m :: ps).

Definition name_char (c : ascii) : Prop := c = "-"%char ∨ (97 ≤ N_of_ascii c ≤ 122)%N.
(** A backslash and a name, as long as can be. *)
Definition link_hit (m z : string) : Prop :=
  ∃ n, m = "\" +:+ n ∧ n ≠ "" ∧ Forall name_char (list_ascii_of_string n) ∧ ∀ c z', z = String c z' → ¬ name_char c.
(** Something in braces that has no closing brace. *)
Definition arg_hit (m z : string) : Prop :=
  ∃ a, m = "{" +:+ a +:+ "}" ∧ a ≠ "" ∧ "}"%char ∉ list_ascii_of_string a.

(** ** Code that is shown *)

Definition raw (s : string) : content := CStyled "raw-html" false (CString s) [].
Definition code (language : string) (flow : bool) (parts : list content) : content :=
  CStyled (if flow then "code-flow" else "code-block") (negb flow) (CSeq parts) [("Language", Some (CString language))].
Definition name_of (m : string) : string := match m with String _ n => n | "" => "" end.
Definition links_to (self : nat) (n : string) : content :=
  CSeq [CString "\"; CRef self n (Some (CString n)) true (Loc 0 0 0)].
Definition emphasized (a : string) : content := CSeq [CString "{"; CStyled "italic" false (CString a) []; CString "}"].

(** The parts of highlighted code: names of functions are links. *)
Inductive linked (self : nat) : string → list content → Prop :=
| linked_by html ps : cuts link_hit html ps →
    linked self html (map (λ p, match p with Plain s => raw s | Hit m => links_to self (name_of m) end) ps).
(** And what stands in braces elsewhere is emphasized. *)
Inductive part_shown (self : nat) : piece → list content → Prop :=
| shown_hit m : part_shown self (Hit m) [links_to self (name_of m)]
| shown_plain s qs : cuts arg_hit s qs →
    part_shown self (Plain s) (map (λ p, match p with Plain t => raw t | Hit m => emphasized (stake (String.length m - 2) (name_of m)) end) qs).
Inductive linked_emphasized (self : nat) : string → list content → Prop :=
| both_by html ps css : cuts link_hit html ps → Forall2 (part_shown self) ps css → linked_emphasized self html (concat css).

(** ** The functions *)

Inductive ending := Gives (c : content) | Fails (e : error) | Crashes.

Section functions.
  Variable text : content → outcome error string.
  Variable hl : string → option string → bool → string → string + error.
  Variable show : node → string.
  Variable self : nat.
  Variable at_ : loc. (* of the invocation *)

  Definition str_arg (s : string) : argval := AStr s.
  Definition con_arg (c : content) : argval := ACon (Some c).

  (** Highlighting of a content. *)
  Inductive lights (language : string) (style : option string) (c : content) : string + error → Prop :=
  | lights_as s r : text c = Ok s → hl language style (is_flow c) s = r → lights language style c r.
  Definition unreadable (c : content) : Prop := ∀ s, text c ≠ Ok s.

  (** An invocation as it is written. *)
  Inductive written_args : list node → string → Prop :=
  | written_none : written_args [] ""
  | written_arg l ss args s : Forall2 (λ nd t, match nd with NString u => t = u | _ => t = show nd end) l ss →
      written_args args s → written_args (NSeq l :: args) ("{" +:+ sconcat ss +:+ "}" +:+ s).

  Inductive syntax : list argval → ending → Prop :=
  | syntax_made language c names html : lights language (head names) c (inl html) →
      syntax (str_arg language :: con_arg c :: map str_arg names) (Gives (code language (is_flow c) [raw html]))
  | syntax_failed language c names e : lights language (head names) c (inr e) →
      syntax (str_arg language :: con_arg c :: map str_arg names) (Fails e)
  | syntax_crash language c names : unreadable c → syntax (str_arg language :: con_arg c :: map str_arg names) Crashes.

  Inductive docs : string → list argval → ending → Prop :=
  | do_output_frame url : docs "output-frame" [str_arg url]
      (Gives (CStyled "output-frame" false (CLink (CString url) url) [("URL", Some (CString url))]))
  | do_syntax_hl c : docs "syntax-hl" [con_arg c] (Gives (CStyled "syntax-hl" false c []))
  | do_column_header c : docs "column-header" [con_arg c] (Gives (CStyled "column-header" true c []))
  | do_columns c cs : docs "columns" (con_arg c :: map con_arg cs) (Gives (CStyled "columns" true c [("Columns", Some (CSeq cs))]))
  | do_lit c html parts : lights "lit" None c (inl html) → linked self html parts →
      docs "lit-syntax" [con_arg c] (Gives (CStyled (if is_flow c then "lit-flow" else "lit-block") false (code "lit" (is_flow c) parts) []))
  | do_lit_failed c e : lights "lit" None c (inr e) → docs "lit-syntax" [con_arg c] (Fails e)
  | do_lit_crash c : unreadable c → docs "lit-syntax" [con_arg c] Crashes
  (** stars before the name of a package are shown, and no part of the address *)
  | do_godoc stars pkg name : Forall (λ c, c = "*"%char) (list_ascii_of_string stars) → (∀ r, pkg ≠ String "*" r) →
      "."%char ∉ list_ascii_of_string pkg →
      docs "godoc" [str_arg (stars +:+ pkg +:+ "." +:+ name)]
        (Gives (CLink (CStyled "verbatim" false (CSeq [CString (stars +:+ pkg +:+ "."); CStyled "bold" false (CString name) []]) [])
           ("https://pkg.go.dev/github.com/vito/" +:+ pkg +:+ "#" +:+ name)))
  | do_godoc_crash ref : "."%char ∉ list_ascii_of_string ref → docs "godoc" [str_arg ref] Crashes
  | do_template_link t : docs "template-link" [str_arg t]
      (Gives (CLink (CStyled "verbatim" false (CString t) []) ("https://github.com/vito/booklit/blob/master/render/html/" +:+ t)))
  (** the function is a target, has its name as title and its invocation as a thumbnail *)
  | do_define fn args l rest c title s html parts :
      hl "lit" None true ("\" +:+ fn) = inl title → written_args args s → hl "lit" None true ("\" +:+ fn +:+ s) = inl html →
      linked_emphasized self html parts →
      docs "define" [ANode (NSeq (NInvoke fn args l :: rest)); con_arg c]
        (Gives (CStyled "definition" false c
           [("Thumb", Some (CSeq [CTarget fn at_ (Some (code "lit" true [raw title])) (Some c); code "lit" true parts]))]))
  | do_define_title fn args l rest c e : hl "lit" None true ("\" +:+ fn) = inr e →
      docs "define" [ANode (NSeq (NInvoke fn args l :: rest)); con_arg c] (Fails e)
  | do_define_thumb fn args l rest c title s e :
      hl "lit" None true ("\" +:+ fn) = inl title → written_args args s → hl "lit" None true ("\" +:+ fn +:+ s) = inr e →
      docs "define" [ANode (NSeq (NInvoke fn args l :: rest)); con_arg c] (Fails e)
  | do_define_crash nd c : (∀ fn args l rest, nd ≠ NSeq (NInvoke fn args l :: rest)) → docs "define" [ANode nd; con_arg c] Crashes
  | do_define_args fn args l rest c title : hl "lit" None true ("\" +:+ fn) = inl title → (∀ s, ¬ written_args args s) →
      docs "define" [ANode (NSeq (NInvoke fn args l :: rest)); con_arg c] Crashes
  | do_fruit name c tags : name ≠ "" →
      docs "describe-fruit" (str_arg name :: con_arg c :: map str_arg tags)
        (Gives (CSeq (map (λ t, CTarget t at_ (Some (CString name)) (Some c)) (if decide (tags = []) then [name] else tags) ++
                      [CPara [CStyled "bold" false (CString name) []]; c])))
  | do_fruit_blank c tags : docs "describe-fruit" (str_arg "" :: con_arg c :: map str_arg tags) (Fails (EPlugin "name cannot be blank")).
End functions.
