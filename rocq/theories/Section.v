(** section.go and reference.go: sections, tags, tag lookup, references. *)
From Coq Require Import Ascii String.
From stdpp Require Import base list strings.
From Verif Require Import GoBase Ast Content.

(** Plugin factories (plugin.go:17): the base plugin's [NewPlugin], or some
    externally registered one. *)
Inductive factory := FBase | FExt (n : nat).

(** section.go:102-126 [Tag]. The zero [Tag] has a nil section and title. *)
Record tag := Tag {
  t_name : string;
  t_title : option content;
  t_section : option nat;
  t_anchor : string;
  t_content : option content;
  t_loc : loc
}.
Definition tag0 : tag := Tag "" None None "" None loc0.

(** section.go:13-87 [Section]. [Processor] is implicit (there is one).
    [Plugins] is [PluginFactories] applied to the section, in the same order
    (section.go:394-397), so only the factories are kept. *)
Record section := Section {
  s_path : string;
  s_title : content;
  s_body : content;
  s_titleloc : loc;
  s_primary : tag;
  s_tags : list tag;
  s_parent : option nat;
  s_children : list nat;
  s_style : string;
  s_partials : list (string * option content);
  s_split : bool;
  s_prevent : bool;
  s_reset : bool;
  s_omit : bool;
  s_factories : list factory;
  s_loc : loc;
  s_invloc : loc
}.

(** The Go heap of sections: a pointer is an index. *)
Notation heap := (list section).

(** A freshly allocated section, load/processor.go:115-124 and 146-153. *)
Definition new_section (parent : option nat) (path : string) : section :=
  Section path CEmpty CEmpty loc0 tag0 [] parent [] "" [] false false false false [] loc0 loc0.

(** Field assignments. *)
Definition set_title_fields (s : section) (t : content) (l : loc) (p : tag) (ts : list tag) : section :=
  Section (s_path s) t (s_body s) l p ts (s_parent s) (s_children s) (s_style s)
    (s_partials s) (s_split s) (s_prevent s) (s_reset s) (s_omit s) (s_factories s) (s_loc s) (s_invloc s).
Definition set_body (s : section) (b : content) : section :=
  Section (s_path s) (s_title s) b (s_titleloc s) (s_primary s) (s_tags s) (s_parent s) (s_children s)
    (s_style s) (s_partials s) (s_split s) (s_prevent s) (s_reset s) (s_omit s) (s_factories s) (s_loc s) (s_invloc s).
Definition set_tags (s : section) (ts : list tag) : section :=
  Section (s_path s) (s_title s) (s_body s) (s_titleloc s) (s_primary s) ts (s_parent s) (s_children s)
    (s_style s) (s_partials s) (s_split s) (s_prevent s) (s_reset s) (s_omit s) (s_factories s) (s_loc s) (s_invloc s).
Definition set_children (s : section) (cs : list nat) : section :=
  Section (s_path s) (s_title s) (s_body s) (s_titleloc s) (s_primary s) (s_tags s) (s_parent s) cs
    (s_style s) (s_partials s) (s_split s) (s_prevent s) (s_reset s) (s_omit s) (s_factories s) (s_loc s) (s_invloc s).
Definition set_style (s : section) (st : string) : section :=
  Section (s_path s) (s_title s) (s_body s) (s_titleloc s) (s_primary s) (s_tags s) (s_parent s) (s_children s)
    st (s_partials s) (s_split s) (s_prevent s) (s_reset s) (s_omit s) (s_factories s) (s_loc s) (s_invloc s).
Definition set_partials (s : section) (ps : list (string * option content)) : section :=
  Section (s_path s) (s_title s) (s_body s) (s_titleloc s) (s_primary s) (s_tags s) (s_parent s) (s_children s)
    (s_style s) ps (s_split s) (s_prevent s) (s_reset s) (s_omit s) (s_factories s) (s_loc s) (s_invloc s).
Definition set_flags (s : section) (split prevent reset omit : bool) : section :=
  Section (s_path s) (s_title s) (s_body s) (s_titleloc s) (s_primary s) (s_tags s) (s_parent s) (s_children s)
    (s_style s) (s_partials s) split prevent reset omit (s_factories s) (s_loc s) (s_invloc s).
Definition set_factories (s : section) (fs : list factory) : section :=
  Section (s_path s) (s_title s) (s_body s) (s_titleloc s) (s_primary s) (s_tags s) (s_parent s) (s_children s)
    (s_style s) (s_partials s) (s_split s) (s_prevent s) (s_reset s) (s_omit s) fs (s_loc s) (s_invloc s).
Definition set_loc (s : section) (l : loc) : section :=
  Section (s_path s) (s_title s) (s_body s) (s_titleloc s) (s_primary s) (s_tags s) (s_parent s) (s_children s)
    (s_style s) (s_partials s) (s_split s) (s_prevent s) (s_reset s) (s_omit s) (s_factories s) l (s_invloc s).
Definition set_invloc (s : section) (l : loc) : section :=
  Section (s_path s) (s_title s) (s_body s) (s_titleloc s) (s_primary s) (s_tags s) (s_parent s) (s_children s)
    (s_style s) (s_partials s) (s_split s) (s_prevent s) (s_reset s) (s_omit s) (s_factories s) (s_loc s) l.

(** Mutation of the section at a pointer. *)
Definition upd (h : heap) (i : nat) (f : section → section) : heap :=
  match h !! i with Some s => <[i := f s]> h | None => h end.

Definition fuel_of (h : heap) : nat := S (length h).

(** ** Walking up *)

(** section.go:134-144 [FilePath]. *)
Definition file_path_F (h : heap) (rec : nat → option string) (i : nat) : option string :=
  s ← h !! i;
  if String.eqb (s_path s) "" then
    match s_parent s with
    | Some p => rec p
    | None => Some ""%string
    end
  else Some (s_path s).
Definition file_path (h : heap) (i : nat) : option string :=
  gofix (file_path_F h) (fuel_of h) i.

(** section.go:214-220: the loop computing [selfIndex]. *)
Fixpoint self_index (l : list nat) (i : nat) (n : nat) : nat :=
  match l with
  | [] => n
  | c :: r => if Nat.eqb c i then n else self_index r i (S n)
  end.

(** section.go:207-227 [Number]. *)
Definition number_F (h : heap) (rec : nat → option string) (i : nat) : option string :=
  s ← h !! i;
  match s_parent s with
  | None => Some ""%string
  | Some p =>
    parentNumber ← rec p;
    ps ← h !! p;
    let selfIndex := self_index (s_children ps) i 1 in
    if String.eqb parentNumber "" then Some (dec selfIndex)
    else Some (parentNumber +:+ "." +:+ dec selfIndex)%string
  end.
Definition number (h : heap) (i : nat) : option string :=
  gofix (number_F h) (fuel_of h) i.

(** section.go:267-273 [Top]. *)
Definition top_F (h : heap) (rec : nat → option nat) (i : nat) : option nat :=
  s ← h !! i;
  match s_parent s with
  | Some p => rec p
  | None => Some i
  end.
Definition top (h : heap) (i : nat) : option nat := gofix (top_F h) (fuel_of h) i.

(** section.go:400-406 [Depth]. *)
Definition depth_F (h : heap) (rec : nat → option nat) (i : nat) : option nat :=
  s ← h !! i;
  match s_parent s with
  | None => Some 0
  | Some p => d ← rec p; Some (d + 1)
  end.
Definition depth (h : heap) (i : nat) : option nat := gofix (depth_F h) (fuel_of h) i.

(** section.go:410-416 [PageDepth]. *)
Definition page_depth_F (h : heap) (rec : nat → option nat) (i : nat) : option nat :=
  s ← h !! i;
  match s_parent s with
  | None => Some 0
  | Some p =>
    ps ← h !! p;
    if s_reset ps then Some 0
    else d ← rec p; Some (d + 1)
  end.
Definition page_depth (h : heap) (i : nat) : option nat := gofix (page_depth_F h) (fuel_of h) i.

(** section.go:420-430 [SplitSectionsPrevented]. *)
Definition split_prevented_F (h : heap) (rec : nat → option bool) (i : nat) : option bool :=
  s ← h !! i;
  if s_prevent s then Some true
  else match s_parent s with
       | Some p => b ← rec p; if (b : bool) then Some true else Some false
       | None => Some false
       end.
Definition split_prevented (h : heap) (i : nat) : option bool :=
  gofix (split_prevented_F h) (fuel_of h) i.

(** ** Walking down *)

(** section.go:231-249 [HasAnchors]. *)
Definition has_anchors_F (h : heap) (rec : nat → option bool) (i : nat) : option bool :=
  s ← h !! i;
  if existsb (λ t, negb (String.eqb (t_anchor t) "")) (s_tags s) then Some true
  else if s_split s then Some false
  else (fix loop (cs : list nat) : option bool :=
          match cs with
          | [] => Some false
          | c :: r => b ← rec c; if (b : bool) then Some true else loop r
          end) (s_children s).
Definition has_anchors (h : heap) (i : nat) : option bool :=
  gofix (has_anchors_F h) (fuel_of h) i.

(** section.go:252-264 [AnchorTags]. *)
Definition anchor_tags (s : section) : list tag :=
  List.filter (λ t, negb (String.eqb (t_anchor t) "")) (s_tags s).

(** section.go:277-289 [Contains]. *)
Definition contains_F (h : heap) (sub : nat) (rec : nat → option bool) (i : nat) : option bool :=
  if Nat.eqb i sub then Some true
  else
    s ← h !! i;
    (fix loop (cs : list nat) : option bool :=
       match cs with
       | [] => Some false
       | c :: r => b ← rec c; if (b : bool) then Some true else loop r
       end) (s_children s).
Definition contains (h : heap) (i sub : nat) : option bool :=
  gofix (contains_F h sub) (fuel_of h) i.

(** section.go:293-305 [IsOrHasChild]. *)
Definition is_or_has_child (h : heap) (i sub : nat) : option bool :=
  if Nat.eqb i sub then Some true
  else s ← h !! i; Some (existsb (Nat.eqb sub) (s_children s)).

(** ** Page navigation. A nil result is [Some None]. *)

(** section.go:316-323: the loop of [Prev]. *)
Fixpoint prev_loop (cs : list nat) (i : nat) (last : option nat) : option nat :=
  match cs with
  | [] => None
  | c :: r =>
    match last with
    | Some l => if Nat.eqb c i then Some l else prev_loop r i (Some c)
    | None => prev_loop r i (Some c)
    end
  end.

(** section.go:311-326 [Prev]. *)
Definition prev (h : heap) (i : nat) : option (option nat) :=
  s ← h !! i;
  match s_parent s with
  | None => Some None
  | Some p =>
    ps ← h !! p;
    match prev_loop (s_children ps) i None with
    | Some l => Some (Some l)
    | None => Some (Some p)
    end
  end.

(** section.go:350-359: the loop of [NextSibling]. *)
Fixpoint next_loop (cs : list nat) (i : nat) (sawSelf : bool) : option nat :=
  match cs with
  | [] => None
  | c :: r => if sawSelf then Some c else next_loop r i (if Nat.eqb c i then true else sawSelf)
  end.

(** section.go:345-362 [NextSibling]. *)
Definition next_sibling_F (h : heap) (rec : nat → option (option nat)) (i : nat) : option (option nat) :=
  s ← h !! i;
  match s_parent s with
  | None => Some None
  | Some p =>
    ps ← h !! p;
    match next_loop (s_children ps) i false with
    | Some c => Some (Some c)
    | None => rec p
    end
  end.
Definition next_sibling (h : heap) (i : nat) : option (option nat) :=
  gofix (next_sibling_F h) (fuel_of h) i.

(** section.go:330-338 [Next]. *)
Definition next (h : heap) (i : nat) : option (option nat) :=
  s ← h !! i;
  if s_split s then
    match s_children s with
    | c :: _ => Some (Some c)
    | [] => next_sibling h i
    end
  else next_sibling h i.

(** ** Tag lookup *)

(** section.go:432-452 [filterTags]; the argument is (up, exclude, section). *)
Definition filter_tags_F (h : heap) (match_ : string → bool)
    (rec : bool * option nat * nat → option (list tag)) (x : bool * option nat * nat)
    : option (list tag) :=
  let '(up, exclude, i) := x in
  s ← h !! i;
  let own := List.filter (λ t, match_ (t_name t)) (s_tags s) in
  subs ← (fix loop (cs : list nat) : option (list tag) :=
     match cs with
     | [] => Some []
     | c :: r =>
       if (match exclude with Some e => Nat.eqb c e | None => false end) then loop r
       else a ← rec (false, None, c); b ← loop r; Some (a ++ b)
     end) (s_children s);
  match up, s_parent s with
  | true, Some p => ups ← rec (true, Some i, p); Some (own ++ subs ++ ups)
  | _, _ => Some (own ++ subs)
  end.

Definition filter_tags (h : heap) (match_ : string → bool) (i : nat) : option (list tag) :=
  gofix (filter_tags_F h match_) (2 * fuel_of h) (true, None, i).

(** section.go:365-369 [FindTag]. *)
Definition find_tag (h : heap) (i : nat) (name : string) : option (list tag) :=
  filter_tags h (λ other, String.eqb other name) i.

(** section.go:373-377 [SimilarTags]; [similar] abstracts the levenshtein
    comparison. *)
Definition similar_tags (similar : string → string → bool) (h : heap) (i : nat) (name : string)
    : option (list tag) :=
  filter_tags h (similar name) i.

(** ** Errors (errors.go), as structured values. *)

(** errors.go: [ErrorLocation]. *)
Record errloc := ErrLoc { el_file : string; el_loc : loc; el_len : nat }.

Inductive error :=
| EStat (path : string)                                     (* os.Stat/os.Open failure *)
| EParse (l : errloc)                                       (* errors.go:94 ParseError *)
| EUnknownTag (name : string) (similar : list tag) (l : errloc) (* errors.go:120 *)
| EAmbiguous (name : string) (defs : list errloc) (l : errloc)  (* errors.go:161 *)
| EUndefined (fn : string) (l : errloc)                     (* errors.go UndefinedFunctionError *)
| EFailed (fn : string) (e : error) (l : errloc)            (* errors.go FailedFunctionError *)
| ETitleTwice (first second : errloc)                       (* errors.go TitleTwiceError *)
| EArity (fn : string) (given need : nat) (variadic : bool) (* stages/evaluate.go:197,200 *)
| EArgType (ty : string)                                    (* stages/evaluate.go:315 *)
| ERetType (pos : nat) (ty : string)                        (* stages/evaluate.go:254,273,282 *)
| ERetCount (fn : string) (n : nat)                         (* stages/evaluate.go:285 *)
| EUnknownPlugin (name : string)                            (* baselit/plugin.go:31 *)
| ETableRow (row : content)                                 (* baselit/plugin.go:264 *)
| EDefNotList (item : content)                              (* baselit/plugin.go:282 *)
| EDefNotTwo (item : content)                               (* baselit/plugin.go:286 *)
| EPlugin (msg : string).                                   (* any other plugin error *)

(** Which errors implement [PrettyError] (errors.go:81-91). *)
Definition is_pretty (e : error) : bool :=
  match e with
  | EParse _ | EUnknownTag _ _ _ | EAmbiguous _ _ _ | EUndefined _ _ | EFailed _ _ _
  | ETitleTwice _ _ => true
  | _ => false
  end.

(** ** References (reference.go) *)

(** [Tag()] and [resolve()], reference.go:90-160, without the cache (see
    RefCache.v). [Ok None] is the nil tag of an optional reference. [broken] is
    the global [AllowBrokenReferences]. *)
Definition ref_length : nat := 10. (* len("\\reference") *)

Definition resolve (similar : string → string → bool) (h : heap)
    (sec : nat) (name : string) (opt : bool) (l : loc) : outcome error (option tag) :=
  match find_tag h sec name with
  | None => NoFuel
  | Some tags =>
    match tags with
    | [t] => Ok (Some t)
    | [] =>
      if opt then Ok None
      else match similar_tags similar h sec name, file_path h sec with
           | Some sim, Some f => Err (EUnknownTag name sim (ErrLoc f l ref_length))
           | _, _ => NoFuel
           end
    | _ =>
      match mapM (λ t : tag, match t_section t with
                       | Some ts => f ← file_path h ts; Some (ErrLoc f (t_loc t) 0)
                       | None => None
                       end) tags, file_path h sec with
      | Some locs, Some f => Err (EAmbiguous name locs (ErrLoc f l ref_length))
      | _, _ => Panic
      end
    end
  end.

Definition broken_tag (sec : nat) (name : string) (l : loc) : tag :=
  Tag name (Some (CString ("{broken reference: " +:+ name +:+ "}")%string)) (Some sec) "broken" None l.

Definition ref_tag (similar : string → string → bool) (broken : bool) (h : heap)
    (sec : nat) (name : string) (opt : bool) (l : loc) : outcome error (option tag) :=
  match resolve similar h sec name opt l with
  | Err e => if broken then Ok (Some (broken_tag sec name l)) else Err e
  | r => r
  end.

(** [Display()], reference.go:65-76: a nil tag makes [tag.Title] panic. *)
Definition ref_display (similar : string → string → bool) (broken : bool) (h : heap)
    (sec : nat) (name : string) (c : option content) (opt : bool) (l : loc)
    : outcome error (option content) :=
  match c with
  | Some c => Ok (Some c)
  | None =>
    match ref_tag similar broken h sec name opt l with
    | Ok (Some t) => Ok (t_title t)
    | Ok None => Panic
    | Err e => Err e
    | Panic => Panic
    | NoFuel => NoFuel
    end
  end.

(** Error() of the two errors resolution can return (errors.go:129-131,169-174). *)
Definition error_text (e : error) : string :=
  match e with
  | EUnknownTag n _ _ => "unknown tag '" +:+ n +:+ "'"
  | EAmbiguous n _ _ => "ambiguous target for tag '" +:+ n +:+ "'"
  | _ => ""
  end%string.

(** ** String *)

(** list.go:27-36: indentation of the continuation lines of one item. *)
Fixpoint list_text (text : string) (lines : list string) : string :=
  match lines with
  | [] => text
  | line :: r =>
    list_text (if String.eqb text "" then line
               else if String.eqb line "" then text +:+ nls
               else text +:+ nls +:+ "  " +:+ line)%string r
  end.

(** list.go:24-46. *)
Fixpoint list_string (ordered : bool) (i : nat) (items : list string) : string :=
  match items with
  | [] => ""
  | s :: r =>
    let text := list_text "" (ssplit nl (trim_right nl s)) in
    (if ordered then dec (i + 1) +:+ ". " +:+ text +:+ nls +:+ nls
     else "* " +:+ text +:+ nls +:+ nls) +:+ list_string ordered (i + 1) r
  end%string.

(** paragraph.go:10-26. *)
Fixpoint para_join (str : string) (lines : list string) : string :=
  match lines with
  | [] => str
  | l :: r => para_join ((if String.eqb str "" then str else str +:+ " ") +:+ l)%string r
  end.
Definition para_string (lines : list string) : string :=
  let str := para_join "" lines in
  (if String.eqb str "" then str else str +:+ nls +:+ nls)%string.

(** What [fmt] prints for a [%s] operand whose String method panics with a nil
    dereference (fmt catches such panics). *)
Definition fmt_panic : string :=
  "%!s(PANIC=String method: runtime error: invalid memory address or nil pointer dereference)".
Definition fmt_s (o : outcome error string) : outcome error string :=
  match o with Panic => Ok fmt_panic | o => o end.

(** The [String()] methods: string.go:17, sequence.go:19, paragraph.go:10,
    preformatted.go:8, reference.go:45, link.go (embedded), section.go:129,
    toc.go:18, styled.go:37, target.go:23, image.go:20, list.go:24, table.go:14,
    definitions.go:20, lazy.go:37, aux_.go (embedded). [jump] is the recursive
    call on content found through a pointer (a tag's title, a section's title). *)
Fixpoint cstring_F (similar : string → string → bool) (broken : bool) (h : heap)
    (jump : content → outcome error string) (c : content) : outcome error string :=
  let rec := cstring_F similar broken h jump in
  match c with
  | CString s => Ok s
  | CSeq l => obind (λ ss, Ok (sconcat ss)) (omapM rec l)
  | CPara l => obind (λ ss, Ok (para_string ss)) (omapM rec l)
  | CPre l => obind (λ ss, Ok (sconcat (map (λ s, s +:+ nls)%string ss))) (omapM rec l)
  | CRef sec name rc opt l =>
    match rc with
    | Some rc => rec rc
    | None =>
      match ref_tag similar broken h sec name opt l with
      | Ok (Some t) => match t_title t with Some ti => jump ti | None => Panic end
      | Ok None => Panic
      | Err e => Ok ("{broken reference: " +:+ name +:+ ": " +:+ error_text e +:+ "}")%string
      | Panic => Panic
      | NoFuel => NoFuel
      end
    end
  | CLink x _ => rec x
  | CSection s =>
    match h !! s with
    | None => Panic
    | Some sec =>
      obind (λ t, Ok ("{section (" +:+ s_path sec +:+ "): " +:+ t +:+ "}")%string)
        (fmt_s (jump (s_title sec)))
    end
  | CToc _ => Ok ""%string
  | CStyled _ _ x _ => rec x
  | CTarget _ _ _ _ => Ok ""%string
  | CImage p _ => Ok ("{image: " +:+ p +:+ "}")%string
  | CList items o => obind (λ ss, Ok (list_string o 0 ss)) (omapM rec items)
  | CTable rows =>
    obind (λ rs, Ok (sconcat (map (λ cols, "|" +:+ sconcat (map (λ s, " " +:+ s +:+ " |") cols) +:+ nls)%string rs) +:+ nls)%string)
      (omapM (λ row, omapM rec row) rows)
  | CDefs defs =>
    obind (λ ds, Ok (sconcat ds +:+ nls)%string)
      (omapM (λ sd : content * content,
         match sd with
         | (s, d) =>
           obind (λ a, obind (λ b, Ok (a +:+ ": " +:+ b +:+ nls)%string) (fmt_s (rec d)))
             (fmt_s (rec s))
         end) defs)
  | CLazy b _ => Ok (if b then "<lazy block>" else "<lazy flow>")%string
  | CAux x => rec x
  end.

(** [n] bounds the number of pointer jumps; in Go an infinite chain of jumps is a
    fatal stack overflow. *)
Fixpoint cstring (similar : string → string → bool) (broken : bool) (h : heap) (n : nat)
    (c : content) : outcome error string :=
  match n with
  | 0 => cstring_F similar broken h (λ _, NoFuel) c
  | S n => cstring_F similar broken h (cstring similar broken h n) c
  end.

(** ** Titles and tags *)

(** section.go:454: Go's [\s] is [[\t\n\f\r ]]. *)
Definition is_ws (c : ascii) : bool :=
  match code c with 9 | 10 | 12 | 13 | 32 => true | _ => false end.

(** section.go:460: replace each maximal run of whitespace by "-". *)
Fixpoint squeeze_ws (in_ws : bool) (s : string) : string :=
  match s with
  | "" => ""
  | String c r =>
    if is_ws c then (if in_ws then squeeze_ws true r else String "-" (squeeze_ws true r))
    else String c (squeeze_ws false r)
  end%string.

(** section.go:455: the complement of [[^[:alnum:]_\-]], on bytes: all bytes of
    a non-ASCII rune are removed with the rune, and an invalid byte is a rune of
    its own, so byte-wise filtering is exact. *)
Definition tag_char (c : ascii) : bool :=
  is_lower c || is_upper c || is_digit c || Ascii.eqb c "_" || Ascii.eqb c "-".

(** section.go:457-471 [defaultTag] on the title's text. *)
Definition slug (text : string) : string :=
  smap lower (sfilter tag_char (squeeze_ws false (replace_all " & " " and " text))).

Definition default_tag (similar : string → string → bool) (broken : bool) (h : heap) (n : nat)
    (title : content) : outcome error string :=
  match strip_aux title with
  | None => Panic
  | Some t => obind (λ s, Ok (slug s)) (cstring similar broken h n t)
  end.

(** section.go:174-188 [SetTag]. *)
Definition set_tag (i : nat) (name : string) (title : option content) (l : loc)
    (anchor : list string) (s : section) : section :=
  let a := match anchor with [] => ""%string | a :: _ => a end in
  set_tags s (s_tags s ++ [Tag name title (Some i) a None l]).

(** section.go:192-203 [SetTagAnchored]. *)
Definition set_tag_anchored (i : nat) (name : string) (title : option content) (l : loc)
    (c : option content) (anchor : string) (s : section) : section :=
  set_tags s (s_tags s ++ [Tag name title (Some i) anchor c l]).

(** section.go:158-171 [SetTitle], once [tags] is non-empty. *)
Definition set_title (i : nat) (title : content) (l : loc) (tags : list string) (s : section) : section :=
  let s1 := fold_left (λ s name, set_tag i name (Some title) l [] s) tags (set_tags s []) in
  set_title_fields s1 title l (hd tag0 (s_tags s1)) (s_tags s1).

(** section.go:159-161: the tags [SetTitle] uses. *)
Definition title_tags (similar : string → string → bool) (broken : bool) (h : heap) (n : nat)
    (title : content) (tags : list string) : outcome error (list string) :=
  match tags with
  | [] => obind (λ t, Ok [t]) (default_tag similar broken h n title)
  | _ => Ok tags
  end.

(** ** Partials (section.go:380-391): a Go map. *)
Fixpoint assoc_set {V} (k : string) (v : V) (m : list (string * V)) : list (string * V) :=
  match m with
  | [] => [(k, v)]
  | (k', v') :: r => if String.eqb k' k then (k, v) :: r else (k', v') :: assoc_set k v r
  end.
Fixpoint assoc_get {V} (k : string) (m : list (string * V)) : option V :=
  match m with
  | [] => None
  | (k', v) :: r => if String.eqb k' k then Some v else assoc_get k r
  end.

Definition set_partial (name : string) (c : option content) (s : section) : section :=
  set_partials s (assoc_set name c (s_partials s)).
(** A missing key reads as nil. *)
Definition partial (name : string) (s : section) : option content :=
  match assoc_get name (s_partials s) with Some c => c | None => None end.

(** section.go:394-397 [UsePlugin]. *)
Definition use_plugin (f : factory) (s : section) : section :=
  set_factories s (s_factories s ++ [f]).
