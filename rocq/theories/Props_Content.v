(** Theorems about content values and names: C23, C24, C25, C26, C45, C53, C54. *)
From Coq Require Import Ascii String.
From stdpp Require Import base strings list.
From Verif Require Import GoBase Ast Content Section Registry Render RenderSpec ContentSpec StrProofs
  ContentProofs NameProofs.

(** ** C23 *)

Theorem default_tag_is_safe : ∀ text, sforall safe_char (slug text) = true.
Proof. exact slug_safe. Qed.
Print Assumptions default_tag_is_safe.

(** The page of a section with a default tag lies in the output directory. *)
Theorem default_tag_file_has_no_separator : ∀ h ext i s text,
  h !! i = Some s → t_name (s_primary s) = slug text →
  no_char "/" ext = true → no_char "/" (file_of h ext i) = true.
Proof. exact default_page_file. Qed.
Print Assumptions default_tag_file_has_no_separator.

(** Letters and digits survive, lower-cased and in order (after " & " has been
    spelled out). *)
Theorem default_tag_keeps_letters : ∀ text,
  sfilter alnum (slug text) = smap lower (sfilter alnum (replace_all " & " " and " text)).
Proof. exact slug_keeps_alnum. Qed.
Print Assumptions default_tag_keeps_letters.

Theorem ampersand_only : ∀ text, no_char "&" text = true → replace_all " & " " and " text = text.
Proof. exact replace_all_amp. Qed.
Print Assumptions ampersand_only.

(** Exactly: the words of the title, joined by "-". *)
Theorem default_tag_words : ∀ text, no_char "&" text = true →
  ∃ w0 l, text = (w0 +:+ gaps l)%string ∧ every (λ c, ¬ white c) w0 ∧ spaced l ∧
    slug text = (word_tag w0 +:+ sconcat (map (λ p, "-" +:+ word_tag (snd p)) l))%string.
Proof.
  intros text Ha. destruct (spaced_total text) as (w0 & l & -> & Hw & Hl). exists w0, l. split_and!; try done.
  by apply slug_spaced.
Qed.
Print Assumptions default_tag_words.
Theorem default_tag_of_words : ∀ w0 l, no_char "&" (w0 +:+ gaps l) = true → every (λ c, ¬ white c) w0 → spaced l →
  slug (w0 +:+ gaps l) = (word_tag w0 +:+ sconcat (map (λ p, "-" +:+ word_tag (snd p)) l))%string.
Proof. exact slug_spaced. Qed.
Print Assumptions default_tag_of_words.
Theorem default_tag_and : ∀ a b, no_char "&" a = true → no_char "&" b = true →
  slug (a +:+ " & " +:+ b) = slug (a +:+ " and " +:+ b).
Proof. exact slug_and. Qed.
Print Assumptions default_tag_and.
Example default_tag_words_example : spaced [(" ", "b!"); (String "009" "  ", "c"); (" ", "")]%string ∧
  slug ("A" +:+ gaps [(" ", "b!"); (String "009" "  ", "c"); (" ", "")]) = "a-b-c-"%string.
Proof.
  split; [|reflexivity]. repeat (constructor; [done| | |done|]); try constructor; unfold white; simpl; try tauto;
    repeat split; try tauto; intros H; repeat (destruct H as [H|H]; try discriminate); discriminate.
Qed.

(** Finding: safe does not mean usable: titles without ASCII letters all get the
    same, empty, default tag, hence the same page file. *)
Theorem default_tag_empty_refuted : ∃ t1 t2, t1 ≠ t2 ∧ t1 ≠ ""%string ∧ t2 ≠ ""%string ∧
  slug t1 = ""%string ∧ slug t2 = ""%string.
Proof. exists "?!"%string, "..."%string. repeat split; discriminate || reflexivity. Qed.
Print Assumptions default_tag_empty_refuted.

Example default_tag_example : slug "Hello & Goodbye, World_2!" = "hello-and-goodbye-world_2"%string.
Proof. reflexivity. Qed.

(** ** C24 *)

Theorem strip_aux_removes_aux : ∀ c c', strip_aux c = Some c' → no_aux c' = true.
Proof. exact strip_no_aux. Qed.
Print Assumptions strip_aux_removes_aux.

(** Everything except the [Aux] elements of lists stays, in order. *)
Theorem strip_aux_keeps_the_rest : ∀ c c', strip_aux c = Some c' → leaves false c' = leaves true c.
Proof. exact strip_leaves. Qed.
Print Assumptions strip_aux_keeps_the_rest.

Theorem strip_aux_idempotent : ∀ c c', strip_aux c = Some c' → strip_aux c' = Some c'.
Proof. exact strip_idempotent. Qed.
Print Assumptions strip_aux_idempotent.

Theorem strip_aux_identity : ∀ c, no_aux c = true → no_nil c = true → strip_aux c = Some c.
Proof. exact strip_id. Qed.
Print Assumptions strip_aux_identity.

(** It crashes exactly on a nil content at a visited place. *)
Theorem strip_aux_crashes_iff : ∀ c, is_Some (strip_aux c) ↔ strippable c = true.
Proof. exact strip_total. Qed.
Print Assumptions strip_aux_crashes_iff.

(** Finding: a plain reference, or a target without content, crashes StripAux. *)
Theorem strip_aux_total_refuted : ∃ c c',
  c = CSeq [CString "see "; CRef 0 "tag" None false loc0] ∧ strip_aux c = None ∧
  c' = CTarget "tag" loc0 (Some (CString "tag")) None ∧ strip_aux c' = None.
Proof. eexists _, _. repeat split. Qed.
Print Assumptions strip_aux_total_refuted.

(** Finding: the text of an [Aux] that is not an element of a list is kept:
    bold aux text stays in the stripped title. *)
Theorem strip_aux_drops_all_aux_text_refuted : ∃ c c', strip_aux c = Some c' ∧
  c = CStyled "bold" false (CAux (CString "draft")) [] ∧ leaves false c' = [LString "draft"].
Proof.
  exists (CStyled "bold" false (CAux (CString "draft")) []), (CStyled "bold" false (CString "draft") []).
  repeat split.
Qed.
Print Assumptions strip_aux_drops_all_aux_text_refuted.

Example strip_aux_example :
  strip_aux (CSeq [CString "a"; CAux (CString "b"); CStyled "bold" false (CSeq [CAux (CToc 0); CString "c"]) []])
  = Some (CSeq [CString "a"; CStyled "bold" false (CSeq [CString "c"]) []]).
Proof. reflexivity. Qed.

(** ** C25 *)

Theorem append_one : ∀ a c, go_append (Some a) [Some c] = Some (CSeq (elements (Some a) ++ [c])).
Proof. exact append_one_some. Qed.
Print Assumptions append_one.

Theorem append_to_nil : ∀ c, go_append None [Some c] = Some c.
Proof. exact append_one_nil. Qed.
Print Assumptions append_to_nil.

Theorem append_nil_is_identity : ∀ a, go_append a [None] = a.
Proof. exact append_nil_r. Qed.
Print Assumptions append_nil_is_identity.

(** Folding, as the evaluator does, gives one flat sequence. *)
Theorem append_fold : ∀ l,
  fold_append None l =
    match l with
    | [] => None
    | [c] => Some c
    | c :: r => Some (CSeq (elements (Some c) ++ r))
    end.
Proof. exact fold_append_spec. Qed.
Print Assumptions append_fold.

(** Finding: the variadic form drops everything after the first appended element. *)
Theorem append_variadic_refuted : ∃ a b c, ∀ r,
  go_append (Some a) (Some b :: Some c :: r) = Some (CSeq [a; b]) ∧ b ≠ c.
Proof. exists (CString "a"), (CString "b"), (CString "c"). intros r. split; [reflexivity|discriminate]. Qed.
Print Assumptions append_variadic_refuted.

Example append_example : fold_append None [CString "a"; CString "b"; CString "c"] =
  Some (CSeq [CString "a"; CString "b"; CString "c"]).
Proof. reflexivity. Qed.

(** ** C26 *)

Theorem flow_iff_no_block_part : ∀ c, is_flow c = true ↔ ¬ ∃ x, part c x ∧ is_block x.
Proof. exact is_flow_spec. Qed.
Print Assumptions flow_iff_no_block_part.

Example flow_example : is_flow (CSeq [CString "a"; CLink (CStyled "bold" false (CString "b") []) "x"]) = true ∧
  is_flow (CSeq [CString "a"; CAux (CSeq [CPara []])]) = false.
Proof. split; reflexivity. Qed.

(** ** C45 *)

Theorem partials_behave_like_a_map : ∀ hist s k,
  (∃ v, last_value k hist v ∧ partial k (set_partials_all hist s) = v) ∨
  ((∀ p, p ∈ hist → fst p ≠ k) ∧ partial k (set_partials_all hist s) = partial k s).
Proof. exact partials_map. Qed.
Print Assumptions partials_behave_like_a_map.

Theorem fresh_section_has_no_partials : ∀ parent path k, partial k (new_section parent path) = None.
Proof. exact (λ _ _ _, eq_refl). Qed.
Print Assumptions fresh_section_has_no_partials.

Example partials_example :
  partial "a" (set_partials_all [("a", Some CEmpty); ("b", None); ("a", Some (CString "x"))]%string
     (new_section None "")) = Some (CString "x").
Proof. reflexivity. Qed.

(** ** C53 *)

Theorem method_names_follow_words : ∀ f g, sforall fn_char f = true → sforall fn_char g = true →
  method_name f = method_name g ↔ words f = words g.
Proof. exact method_name_inj. Qed.
Print Assumptions method_names_follow_words.

Theorem method_name_of_words : ∀ fn, method_name fn = sconcat (map title_case (words fn)).
Proof. exact method_name_words. Qed.
Print Assumptions method_name_of_words.

Theorem title_case_of_word : ∀ c s, sforall is_lower (String c s) = true →
  title_case (String c s) = String (upper c) s.
Proof. exact title_case_word. Qed.
Print Assumptions title_case_of_word.

Example method_name_example : sforall fn_char "table-of-contents" = true ∧
  method_name "table-of-contents" = "TableOfContents"%string ∧
  words "table--of-contents" = ["table"; "of"; "contents"]%string.
Proof. repeat split. Qed.

(** ** C54 *)

Theorem plugin_registration_is_last_wins : ∀ hist k,
  (∃ f, last_value k hist f ∧ lookup_plugin k (register_all hist) = Some f) ∨
  ((∀ p, p ∈ hist → fst p ≠ k) ∧ lookup_plugin k (register_all hist) = None).
Proof. exact registry_map. Qed.
Print Assumptions plugin_registration_is_last_wins.

Example registry_example :
  lookup_plugin "p" (register_all [("p", FExt 1); ("q", FExt 2); ("p", FExt 3)]%string) = Some (FExt 3).
Proof. reflexivity. Qed.
