(** The plugins of chroma/plugin.go, docs/go/plugin.go and docs/hello/go/plugin.go, as
    method tables for Evaluate.v.

    Highlighting is external: [hl language style flow code] is what lexer and formatter
    make of the code (chroma/plugin.go:80-97); a style is a name, or none for
    [styles.Fallback]. [show] is what [fmt] prints with "%s" for a node that is not a
    string. That [String] of a content never returns (Section.v) is a crash here. *)
From Coq Require Import Ascii String NArith.
From stdpp Require Import base list strings.
From Verif Require Import GoBase Ast Section Content Evaluate Chroma.
Local Open Scope string_scope. Local Open Scope list_scope.

(** ** The regular expressions of docs/go/plugin.go *)

(** [FindAllStringIndex] for an expression that matches [m s] bytes at the start of [s],
    and never none: leftmost matches that do not overlap. [k] bounds the rounds. *)
Fixpoint find_all (m : string → option nat) (k pos : nat) (s : string) : list (nat * nat) :=
  match k, s with
  | 0, _ | _, "" => []
  | S k, String c r =>
    match m s with
    | Some n => (pos, pos + n) :: find_all m k (pos + n) (sdrop n s)
    | None => find_all m k (S pos) r
    end
  end.
Definition find_with (m : string → option nat) (s : string) : list (nat * nat) := find_all m (String.length s) 0 s.

Fixpoint run_of (p : ascii → bool) (s : string) : nat :=
  match s with String c r => if p c then S (run_of p r) else 0 | "" => 0 end.

(** 99: [\\([a-z-]+)]. *)
Definition name_byte (c : ascii) : bool := ((97 <=? N_of_ascii c) && (N_of_ascii c <=? 122))%N || Ascii.eqb c "-".
Definition link_match (s : string) : option nat :=
  match s with
  | String c r => if Ascii.eqb c "\" then match run_of name_byte r with 0 => None | n => Some (S n) end else None
  | "" => None
  end.
(** 116: [\{[^\}]+\}]. *)
Definition arg_match (s : string) : option nat :=
  match s with
  | String c r =>
    if Ascii.eqb c "{" then
      let n := run_of (λ c, negb (Ascii.eqb c "}")) r in
      match n, sdrop n r with
      | S _, String _ _ => Some (S (S n))
      | _, _ => None
      end
    else None
  | "" => None
  end.

(** strings.TrimPrefix and strings.TrimSuffix with one byte. *)
Definition trim_first (c : ascii) (s : string) : string :=
  match s with String d r => if Ascii.eqb d c then r else s | "" => "" end.
Fixpoint trim_last (c : ascii) (s : string) : string :=
  match s with
  | "" => ""
  | String d "" => if Ascii.eqb d c then "" else s
  | String d r => String d (trim_last c r)
  end.
(** strings.TrimLeft with one byte. *)
Fixpoint trim_left (c : ascii) (s : string) : string :=
  match s with String d r => if Ascii.eqb d c then trim_left c r else s | "" => "" end.
(** strings.SplitN(s, c, 2) with two parts; [None]: one part. *)
Fixpoint split_first (c : ascii) (s : string) : option (string * string) :=
  match s with
  | "" => None
  | String d r => if Ascii.eqb d c then Some ("", r) else
      match split_first c r with Some (a, b) => Some (String d a, b) | None => None end
  end.

(** 97-114 [linkTransformer]. *)
Definition link_transformer (sec : nat) : transformer :=
  Transformer (find_with link_match) (λ invoke,
    let function := trim_first "\" invoke in
    CSeq [CString "\"; CRef sec function (Some (CString function)) true loc0]).
(** 116-129 [argTransformer]. *)
Definition arg_transformer : transformer :=
  Transformer (find_with arg_match) (λ farg,
    let arg := trim_first "{" (trim_last "}" farg) in
    CSeq [CString "{"; CStyled "italic" false (CString arg) []; CString "}"]).

Section plugins.
  Variable similar : string → string → bool.
  Variable broken : bool.
  Variable jumps : nat.
  Variable hl : string → option string → bool → string → string + error.
  Variable show : node → string.

  (** chroma/plugin.go:79-136 [SyntaxTransform]. *)
  Definition highlight {A} (language : string) (code : content) (style : option string) (ts : list transformer)
      (k : content + error → prog A) : prog A :=
    PHeap (λ h,
      match cstring similar broken h jumps code with
      | Ok s =>
        match hl language style (is_flow code) s with
        | inr e => k (inr e)
        | inl html => match syntax_transform language code html ts with Some c => k (inl c) | None => PPanic end
        end
      | _ => PPanic
      end).

  (** chroma/plugin.go:41-48. *)
  Definition m_syntax : method :=
    Method [TStr; TCon] (Some TStr) (λ self args,
      match args with
      | AStr language :: ACon (Some code) :: rest =>
        match str_args rest with
        | Some names => highlight language code (head names) [] ret_con_err
        | None => ill_typed
        end
      | _ => ill_typed
      end).
  Definition chroma_table : list (string * method) := [("Syntax", m_syntax)].
  Definition chroma_method (name : string) : option method := assoc_get name chroma_table.

  (** docs/hello/go/plugin.go:17-27. *)
  Definition m_quote : method :=
    Method [TCon; TCon] None (λ self args,
      match args with
      | [ACon (Some quote); ACon (Some source)] => PRet [RCon (Some (CStyled "quote" false quote [("Source", Some source)]))]
      | _ => ill_typed
      end).
  Definition hello_table : list (string * method) := [("Quote", m_quote)].
  Definition hello_method (name : string) : option method := assoc_get name hello_table.

  (** docs/go/plugin.go:57-68. *)
  Definition m_output_frame : method :=
    Method [TStr] None (λ self args,
      match args with
      | [AStr url] => PRet [RCon (Some (CStyled "output-frame" false (CLink (CString url) url) [("URL", Some (CString url))]))]
      | _ => ill_typed
      end).
  (** 70-83. *)
  Definition m_docs_styled (style : string) (block : bool) : method :=
    Method [TCon] None (λ self args,
      match args with [ACon (Some c)] => PRet [RCon (Some (CStyled style block c []))] | _ => ill_typed end).
  (** 85-95. *)
  Definition m_columns : method :=
    Method [TCon] (Some TCon) (λ self args,
      match con_args args with
      | Some (title :: rest) => PRet [RCon (Some (CStyled "columns" true title [("Columns", Some (CSeq rest))]))]
      | _ => ill_typed
      end).
  (** 131-147. *)
  Definition m_lit_syntax : method :=
    Method [TCon] None (λ self args,
      match args with
      | [ACon (Some code)] =>
        highlight "lit" code None [link_transformer self] (λ r,
          match r with
          | inr e => PRet [RCon None; RErr (Some e)]
          | inl c => PRet [RCon (Some (CStyled (if is_flow code then "lit-flow" else "lit-block") false c [])); RErr None]
          end)
      | _ => ill_typed
      end).
  (** 149-164; [spl[1]] panics if there is none. *)
  Definition m_godoc : method :=
    Method [TStr] None (λ self args,
      match args with
      | [AStr ref] =>
        match split_first "." ref with
        | None => PPanic
        | Some (a, b) =>
          PRet [RCon (Some (CLink (CStyled "verbatim" false (CSeq [CString (a +:+ "."); CStyled "bold" false (CString b) []]) [])
                             ("https://pkg.go.dev/github.com/vito/" +:+ trim_left "*" a +:+ "#" +:+ b))); RErr None]
        end
      | _ => ill_typed
      end).
  (** 166-174. *)
  Definition m_template_link : method :=
    Method [TStr] None (λ self args,
      match args with
      | [AStr tmpl] =>
        PRet [RCon (Some (CLink (CStyled "verbatim" false (CString tmpl) [])
                           ("https://github.com/vito/booklit/blob/master/render/html/" +:+ tmpl))); RErr None]
      | _ => ill_typed
      end).
  (** 210-225 [renderInvoke]; [None]: [arg.(ast.Sequence)] panics. *)
  Definition show_node (nd : node) : string := match nd with NString s => s | _ => show nd end.
  Fixpoint render_args (args : list node) : option string :=
    match args with
    | [] => Some ""
    | NSeq l :: args => r ← render_args args; Some ("{" +:+ sconcat (map show_node l) +:+ "}" +:+ r)
    | _ => None
    end.
  (** 176-208 [Define]; the first panics of both assertions are the same. *)
  Definition m_define : method :=
    Method [TNode; TCon] None (λ self args,
      match args with
      | [ANode nd; ACon (Some c)] =>
        match nd with
        | NSeq (NInvoke fn iargs _ :: _) =>
          highlight "lit" (CString ("\" +:+ fn)) None [] (λ r,
            match r with
            | inr e => PRet [RCon None; RErr (Some e)]
            | inl title =>
              match render_args iargs with
              | None => PPanic
              | Some s =>
                highlight "lit" (CString ("\" +:+ fn +:+ s)) None [link_transformer self; arg_transformer] (λ r,
                  match r with
                  | inr e => PRet [RCon None; RErr (Some e)]
                  | inl thumb =>
                    getself self (λ x,
                      PRet [RCon (Some (CStyled "definition" false c
                              [("Thumb", Some (CSeq [CTarget fn (s_invloc x) (Some title) (Some c); thumb]))])); RErr None])
                  end)
              end
            end)
        | _ => PPanic
        end
      | _ => ill_typed
      end).
  (** 227-257 [DescribeFruit]. *)
  Definition m_describe_fruit : method :=
    Method [TStr; TCon] (Some TStr) (λ self args,
      match args with
      | AStr name :: ACon (Some definition) :: rest =>
        match str_args rest with
        | None => ill_typed
        | Some tags =>
          if String.eqb name "" then PRet [RCon None; RErr (Some (EPlugin "name cannot be blank"))]
          else getself self (λ x,
            let tags := match tags with [] => [name] | _ => tags end in
            PRet [RCon (Some (CSeq (map (λ tag, CTarget tag (s_invloc x) (Some (CString name)) (Some definition)) tags ++
                    [CPara [CStyled "bold" false (CString name) []]; definition]))); RErr None])
        end
      | _ => ill_typed
      end).

  Definition docs_table : list (string * method) :=
    [ ("OutputFrame", m_output_frame); ("SyntaxHl", m_docs_styled "syntax-hl" false);
      ("ColumnHeader", m_docs_styled "column-header" true); ("Columns", m_columns); ("LitSyntax", m_lit_syntax);
      ("Godoc", m_godoc); ("TemplateLink", m_template_link); ("Define", m_define); ("DescribeFruit", m_describe_fruit) ].
  Definition docs_method (name : string) : option method := assoc_get name docs_table.
End plugins.
