(** What templates should be told about sections, tags and contents. *)
From Coq Require Import Ascii String.
From stdpp Require Import base relations strings list.
From Verif Require Import GoBase Ast Content Section TreeSpec Render Html TmplExec TmplMeaning TextRender ContentSpec TagProofs QueryProofs Props_Refs.
Local Open Scope string_scope. Local Open Scope list_scope.

(** A content in a template: sections are pointers to them. *)
Inductive shown : content → val → Prop :=
| shown_section i : shown (CSection i) (VSec i)
| shown_other c : (∀ i, c ≠ CSection i) → shown c (VCon c).
Inductive shown_opt : option content → val → Prop :=
| shown_nil : shown_opt None VNil
| shown_some c v : shown c v → shown_opt (Some c) v.
Inductive section_opt : option nat → val → Prop :=
| no_section : section_opt None VNil
| a_section i : section_opt (Some i) (VSec i).

Section members.
  Variable h : heap.
  Variable text : content → outcome error string.

  (** The section after [i] that is not below it, in the order of the book. *)
  Inductive follows : nat → option nat → Prop :=
  | follows_top i : is_top h i → follows i None
  | follows_next p ps k i j : h !! p = Some ps → s_children ps !! k = Some i → s_children ps !! S k = Some j → follows i (Some j)
  | follows_up p ps k i o : h !! p = Some ps → s_children ps !! k = Some i → s_children ps !! S k = None → follows p o → follows i o.
  (** The file a section stands in: that of the nearest section around it that has one. *)
  Definition stands_in (i : nat) (f : string) : Prop :=
    (∃ a s, ancestor h a i ∧ h !! a = Some s ∧ s_path s = f ∧ f ≠ "" ∧
       ∀ b bs, ancestor h b i → h !! b = Some bs → s_path bs ≠ "" → ancestor h b a) ∨
    (f = "" ∧ ∀ b bs, ancestor h b i → h !! b = Some bs → s_path bs = "").

  (** Section [i], which is [s]. *)
  Inductive tells (i : nat) (s : section) : string → list val → val → Prop :=
  | tells_path : tells i s "Path" [] (VStr (s_path s))
  | tells_title v : shown (s_title s) v → tells i s "Title" [] v
  | tells_body v : shown (s_body s) v → tells i s "Body" [] v
  | tells_primary : tells i s "PrimaryTag" [] (VTag (s_primary s))
  | tells_tags : tells i s "Tags" [] (VList (map VTag (s_tags s)))
  | tells_parent v : section_opt (s_parent s) v → tells i s "Parent" [] v
  | tells_children : tells i s "Children" [] (VList (map VSec (s_children s)))
  | tells_style : tells i s "Style" [] (VStr (s_style s))
  | tells_split : tells i s "SplitSections" [] (VBool (s_split s))
  | tells_prevent : tells i s "PreventSplitSections" [] (VBool (s_prevent s))
  | tells_reset : tells i s "ResetDepth" [] (VBool (s_reset s))
  | tells_omit : tells i s "OmitChildrenFromTableOfContents" [] (VBool (s_omit s))
  | tells_string t : text (CSection i) = Ok t → tells i s "String" [] (VStr t)
  | tells_flow : tells i s "IsFlow" [] (VBool false)
  | tells_file f : stands_in i f → tells i s "FilePath" [] (VStr f)
  (** 1.2 is the second section in the first *)
  | tells_number l : position h i l → tells i s "Number" [] (VStr (sjoin "." (map dec l)))
  (** on the page of [i], as far as it begins with [i] *)
  | tells_anchors b : (b = true ↔ ∃ x xs t, rtc (inlined h) i x ∧ h !! x = Some xs ∧ t ∈ s_tags xs ∧ t_anchor t ≠ "") →
      tells i s "HasAnchors" [] (VBool b)
  | tells_anchor_tags : tells i s "AnchorTags" [] (VList (map VTag (filter (λ t, t_anchor t ≠ "") (s_tags s))))
  | tells_top r : is_top h r → ancestor h r i → tells i s "Top" [] (VSec r)
  | tells_prev_none : is_top h i → tells i s "Prev" [] VNil
  | tells_prev_parent p ps : h !! p = Some ps → s_children ps !! 0 = Some i → tells i s "Prev" [] (VSec p)
  | tells_prev_sibling p ps k j : h !! p = Some ps → s_children ps !! S k = Some i → s_children ps !! k = Some j → tells i s "Prev" [] (VSec j)
  | tells_next_child c cs : s_split s = true → s_children s = c :: cs → tells i s "Next" [] (VSec c)
  | tells_next o v : (s_split s = true → s_children s = []) → follows i o → section_opt o v → tells i s "Next" [] v
  | tells_next_sibling o v : follows i o → section_opt o v → tells i s "NextSibling" [] v
  | tells_depth r d : is_top h r → nsteps (parent_of h) d r i → tells i s "Depth" [] (VInt d)
  (** up to the first section that resets it *)
  | tells_page_depth d a : nsteps (λ x y, parent_of h x y ∧ ∀ xs, h !! x = Some xs → s_reset xs = false) d a i →
      (is_top h a ∨ ∃ p ps, parent_of h p a ∧ h !! p = Some ps ∧ s_reset ps = true) → tells i s "PageDepth" [] (VInt d)
  | tells_prevented b : (b = true ↔ ∃ a xs, ancestor h a i ∧ h !! a = Some xs ∧ s_prevent xs = true) →
      tells i s "SplitSectionsPrevented" [] (VBool b)
  | tells_contains j b : (b = true ↔ descendant h i j) → tells i s "Contains" [VSec j] (VBool b)
  | tells_child j b : (b = true ↔ i = j ∨ child_of h i j) → tells i s "IsOrHasChild" [VSec j] (VBool b)
  | tells_partial name v : shown_opt (partial name s) v → tells i s "Partial" [VStr name] v
  | tells_find name r l ts : is_top h r → descendant h r i → listing h (λ _, true) r l →
      ts ≡ₚ flat_map (tags_at h (λ n, String.eqb n name)) l → tells i s "FindTag" [VStr name] (VList (map VTag ts)).

  (** The tag a reference is to. *)
  Variable broken : bool.
  Inductive refers (sec : nat) (name : string) (opt : bool) (l : loc) : option tag → Prop :=
  | refers_one t : all_tags h sec (λ n, String.eqb n name) [t] → refers sec name opt l (Some t)
  | refers_none : opt = true → all_tags h sec (λ n, String.eqb n name) [] → refers sec name opt l None
  | refers_broken defs : broken = true → all_tags h sec (λ n, String.eqb n name) defs → length defs ≠ 1 → (opt = true → defs ≠ []) →
      refers sec name opt l (Some (Tag name (Some (CString ("{broken reference: " +:+ name +:+ "}"))) (Some sec) "broken" None l)).

  (** Other contents. *)
  Inductive says_of : content → string → list val → val → Prop :=
  | says_string c t : text c = Ok t → says_of c "String" [] (VStr t)
  | says_flow c b : (b = true ↔ ¬ ∃ x, ContentSpec.part c x ∧ is_block x) → says_of c "IsFlow" [] (VBool b)
  | says_contents l vs : Forall2 shown l vs → says_of (CSeq l) "Contents" [] (VList vs)
  | says_ref_section sec name rc opt l : says_of (CRef sec name rc opt l) "Section" [] (VSec sec)
  | says_ref_name sec name rc opt l : says_of (CRef sec name rc opt l) "TagName" [] (VStr name)
  | says_ref_content sec name rc opt l v : shown_opt rc v → says_of (CRef sec name rc opt l) "Content" [] v
  | says_ref_optional sec name rc opt l : says_of (CRef sec name rc opt l) "Optional" [] (VBool opt)
  | says_ref_tag sec name rc opt l t : refers sec name opt l (Some t) → says_of (CRef sec name rc opt l) "Tag" [] (VTag t)
  | says_ref_tag_none sec name rc opt l : refers sec name opt l None → says_of (CRef sec name rc opt l) "Tag" [] VNil
  (** its own words, or the title of what it refers to *)
  | says_ref_display sec name c opt l v : shown c v → says_of (CRef sec name (Some c) opt l) "Display" [] v
  | says_ref_title sec name opt l t v : refers sec name opt l (Some t) → shown_opt (t_title t) v →
      says_of (CRef sec name None opt l) "Display" [] v
  | says_link_content c t v : shown c v → says_of (CLink c t) "Content" [] v
  | says_link_target c t : says_of (CLink c t) "Target" [] (VStr t)
  | says_toc i : says_of (CToc i) "Section" [] (VSec i)
  | says_style st b c ps : says_of (CStyled st b c ps) "Style" [] (VStr st)
  | says_block st b c ps : says_of (CStyled st b c ps) "Block" [] (VBool b)
  | says_styled st b c ps v : shown c v → says_of (CStyled st b c ps) "Content" [] v
  (** the entry of that name made last *)
  | says_partial st b c before name o after v : (∀ o', (name, o') ∉ before) → shown_opt o v →
      says_of (CStyled st b c (before ++ (name, o) :: after)) "Partial" [VStr name] v
  | says_no_partial st b c ps name : (∀ o, (name, o) ∉ ps) → says_of (CStyled st b c ps) "Partial" [VStr name] VNil
  | says_target_name t l ti x : says_of (CTarget t l ti x) "TagName" [] (VStr t)
  | says_target_title t l ti x v : shown_opt ti v → says_of (CTarget t l ti x) "Title" [] v
  | says_target_content t l ti x v : shown_opt x v → says_of (CTarget t l ti x) "Content" [] v
  | says_image_path p d : says_of (CImage p d) "Path" [] (VStr p)
  | says_image_description p d : says_of (CImage p d) "Description" [] (VStr d)
  | says_items l o vs : Forall2 shown l vs → says_of (CList l o) "Items" [] (VList vs)
  | says_ordered l o : says_of (CList l o) "Ordered" [] (VBool o)
  | says_rows rows vss : Forall2 (λ row v, ∃ vs, v = VList vs ∧ Forall2 shown row vs) rows vss → says_of (CTable rows) "Rows" [] (VList vss)
  | says_aux c v : shown c v → says_of (CAux c) "Content" [] v.

  (** Anything. *)
  Inductive asked : val → string → list val → val → Prop :=
  | asked_section i s f args v : h !! i = Some s → tells i s f args v → asked (VSec i) f args v
  | asked_content c f args v : says_of c f args v → asked (VCon c) f args v
  | asked_name t : asked (VTag t) "Name" [] (VStr (t_name t))
  | asked_title t v : shown_opt (t_title t) v → asked (VTag t) "Title" [] v
  | asked_of t v : section_opt (t_section t) v → asked (VTag t) "Section" [] v
  | asked_anchor t : asked (VTag t) "Anchor" [] (VStr (t_anchor t))
  | asked_tag_content t v : shown_opt (t_content t) v → asked (VTag t) "Content" [] v
  | asked_subject s d v : shown s v → asked (VDef s d) "Subject" [] v
  | asked_definition s d v : shown d v → asked (VDef s d) "Definition" [] v
  | asked_current cur sec : asked (VWalk cur sec) "Current" [] (VSec cur)
  | asked_walked cur sec : asked (VWalk cur sec) "Section" [] (VSec sec).
End members.

(** ** Functions *)

(** Strings, whatever their type. *)
Inductive string_of : val → string → Prop :=
| so_str s : string_of (VStr s) s
| so_html s : string_of (VHtml s) s
| so_url s : string_of (VUrl s) s
| so_content s : string_of (VCon (CString s)) s.
(** What is compared, and whether it is the same. *)
Inductive compared : val → val → bool → Prop :=
| cmp_bool a b c : (c = true ↔ a = b) → compared (VBool a) (VBool b) c
| cmp_int a b c : (c = true ↔ a = b) → compared (VInt a) (VInt b) c
| cmp_string v w a b c : string_of v a → string_of w b → (c = true ↔ a = b) → compared v w c.
(** Whether it is the same as one of them; those after that one do not matter. *)
Inductive among (a : val) : list val → bool → Prop :=
| among_none : among a [] false
| among_here b l : compared a b true → among a (b :: l) true
| among_later b l c : compared a b false → among a l c → among a (b :: l) c.
(** A content, not nil. *)
Inductive content_of : val → content → Prop :=
| co_content c : content_of (VCon c) c
| co_section i : content_of (VSec i) (CSection i).

Section functions.
  Variable h : heap.
  Variable text : content → outcome error string.
  Variable ext : string.
  Variable html : bool.
  Variable render : content → rendered.

  Inductive applied : string → list val → val → Prop :=
  | ap_not v b : (b = true ↔ empty v) → applied "not" [v] (VBool b)
  | ap_eq a b l c : among a (b :: l) c → applied "eq" (a :: b :: l) (VBool c)
  | ap_ne a b c : compared a b c → applied "ne" [a; b] (VBool (negb c))
  | ap_len_string v s : string_of v s → applied "len" [v] (VInt (String.length s))
  | ap_len v l : element_list v l → applied "len" [v] (VInt (length l))
  | ap_render v c s : content_of v c → render c = Ok s → applied "render" [v] (if html then VHtml s else VStr s)
  | ap_url t i u : t_section t = Some i → address h ext i (t_anchor t) u → applied "url" [VTag t] (VStr u)
  | ap_strip v c c' w : content_of v c → strip_aux c = Some c' → shown c' w → applied "stripAux" [v] w
  | ap_raw_html v c s : html = true → content_of v c → text c = Ok s → applied "rawHTML" [v] (VHtml s)
  | ap_raw_url v c s : html = true → content_of v c → text c = Ok s → applied "rawURL" [v] (VUrl s)
  | ap_walk cur sec : html = true → applied "walkContext" [VSec cur; VSec sec] (VWalk cur sec)
  (** headings have levels from 1 to 6 *)
  | ap_depth i d a : html = true → nsteps (λ x y, parent_of h x y ∧ ∀ xs, h !! x = Some xs → s_reset xs = false) d a i →
      (is_top h a ∨ ∃ p ps, parent_of h p a ∧ h !! p = Some ps ∧ s_reset ps = true) →
      applied "headerDepth" [VSec i] (VInt (Nat.min 6 (S d)))
  | ap_html_url t i u : html = false → t_section t = Some i → address h "html" i (t_anchor t) u → applied "htmlURL" [VTag t] (VStr u)
  (** every line but the first gets the prefix *)
  | ap_join prefix line lines : html = false → Forall (λ l, "010"%char ∉ list_ascii_of_string l) (line :: lines) →
      applied "joinLines" [VStr prefix; VStr (sjoin (String "010" "") (line :: lines))]
        (VStr (sjoin (String "010" prefix) (line :: lines))).
End functions.
