(** Theorems about section trees: C12, C13, C14, C15, C16, C17, C41, C48. *)
From Coq Require Import Ascii String.
From stdpp Require Import base list strings relations.
From Verif Require Import GoBase Ast Content Section RefCache Render TreeSpec TreeProofs TagProofs NavProofs
  QueryProofs Demo.

(** ** C12 *)

(** Number() is the dot-joined list of one-based positions from the top. *)
Theorem number_describes_position : ∀ h i l, wf h → position h i l →
  number h i = Some (sjoin "." (map dec l)).
Proof. exact number_position. Qed.
Print Assumptions number_describes_position.

(** Every section of a tree has a position, hence a number. *)
Theorem every_section_has_a_position : ∀ h r i, wf h → is_top h r → descendant h r i →
  ∃ l, position h i l.
Proof. exact position_exists. Qed.
Print Assumptions every_section_has_a_position.

Theorem numbers_are_unique : ∀ h r i j n, wf h → is_top h r → descendant h r i → descendant h r j →
  number h i = Some n → number h j = Some n → i = j.
Proof. exact number_unique. Qed.
Print Assumptions numbers_are_unique.

Theorem number_empty_only_at_top : ∀ h i, wf h → valid h i →
  number h i = Some ""%string ↔ is_top h i.
Proof. exact number_empty_iff. Qed.
Print Assumptions number_empty_only_at_top.

Example number_example :
  wf demo ∧ is_top demo 0 ∧ descendant demo 0 3 ∧ position demo 3 [1; 2] ∧ number demo 3 = Some "1.2"%string.
Proof.
  split; [exact demo_wf|]. split; [exact demo_top|]. split; [apply demo_desc; lia|]. split; [|reflexivity].
  apply (pos_child demo 1 _ 3 1 [1] eq_refl eq_refl).
  apply (pos_child demo 0 _ 1 0 [] eq_refl eq_refl). constructor. exact demo_top.
Qed.

(** ** C13 *)

(** From every section of the tree the search returns the tags of the whole tree
    with an accepted name, those of each section exactly once. *)
Theorem find_tag_complete : ∀ h r i name l, wf h → is_top h r → descendant h r i →
  listing h (λ _, true) r l →
  ∃ ts, find_tag h i name = Some ts ∧ ts ≡ₚ flat_map (tags_at h (λ n, String.eqb n name)) l.
Proof. exact (λ h r i name l, filter_tags_tree h r i (λ n, String.eqb n name) l). Qed.
Print Assumptions find_tag_complete.

Theorem similar_tags_complete : ∀ similar h r i name l, wf h → is_top h r → descendant h r i →
  listing h (λ _, true) r l →
  ∃ ts, similar_tags similar h i name = Some ts ∧ ts ≡ₚ flat_map (tags_at h (similar name)) l.
Proof. exact (λ similar h r i name l, filter_tags_tree h r i (similar name) l). Qed.
Print Assumptions similar_tags_complete.

Theorem find_tag_position_independent : ∀ h r i j name, wf h → is_top h r →
  descendant h r i → descendant h r j →
  ∃ ti tj, find_tag h i name = Some ti ∧ find_tag h j name = Some tj ∧ ti ≡ₚ tj.
Proof. exact find_tag_same. Qed.
Print Assumptions find_tag_position_independent.

(** Membership form, also for a section that is not (yet) listed by its parent:
    the scope is everything below one of its ancestors. *)
Theorem find_tag_scope : ∀ h i name, wf h → valid h i →
  ∃ ts, find_tag h i name = Some ts ∧ all_tags h i (λ n, String.eqb n name) ts.
Proof. exact (λ h i name, filter_tags_all h (λ n, String.eqb n name) i). Qed.
Print Assumptions find_tag_scope.

Example find_tag_example : wf demo ∧ is_top demo 0 ∧ descendant demo 0 3 ∧ descendant demo 0 5 ∧
  listing demo (λ _, true) 0 [0; 1; 2; 3; 4; 5] ∧
  option_map (map t_section) (find_tag demo 3 "faq") = Some [Some 2; Some 5] ∧
  option_map (map t_section) (find_tag demo 5 "faq") = Some [Some 5; Some 2].
Proof.
  split; [exact demo_wf|]. split; [exact demo_top|]. split; [apply demo_desc; lia|].
  split; [apply demo_desc; lia|]. split; [exact demo_listing|]. split; reflexivity.
Qed.

(** ** C14 *)

Theorem reference_resolution : ∀ similar h sec name opt l defs,
  wf h → valid h sec → tags_owned h →
  all_tags h sec (λ n, String.eqb n name) defs →
  (∀ t, defs = [t] → resolve similar h sec name opt l = Ok (Some t)) ∧
  (defs = [] →
     if opt then resolve similar h sec name opt l = Ok None
     else ∃ f sim, resolve similar h sec name opt l = Err (EUnknownTag name sim (ErrLoc f l 10)) ∧
          file_path h sec = Some f ∧ all_tags h sec (similar name) sim) ∧
  (1 < length defs → ∃ f ds locs,
     resolve similar h sec name opt l = Err (EAmbiguous name locs (ErrLoc f l 10)) ∧
     file_path h sec = Some f ∧ ds ≡ₚ defs ∧ Forall2 (defined_at h) ds locs).
Proof. exact resolve_spec. Qed.
Print Assumptions reference_resolution.

Theorem broken_references_never_fail : ∀ similar h sec name opt l,
  wf h → valid h sec → tags_owned h →
  ∃ t, ref_tag similar true h sec name opt l = Ok t.
Proof. exact ref_tag_broken. Qed.
Print Assumptions broken_references_never_fail.

Example reference_example : wf demo ∧ valid demo 3 ∧ tags_owned demo ∧
  (∃ t, resolve (λ _ _, false) demo 3 "api" false loc0 = Ok (Some t) ∧ t_section t = Some 5) ∧
  resolve (λ _ _, false) demo 3 "nope" true loc0 = Ok None ∧
  resolve (λ _ _, false) demo 3 "faq" false loc0 =
    Err (EAmbiguous "faq" [ErrLoc "/b/index.lit" (Loc 7 1 60) 0; ErrLoc "/b/r/ref.lit" (Loc 3 2 20) 0]
           (ErrLoc "/b/index.lit" loc0 10)).
Proof.
  split; [exact demo_wf|]. split; [unfold valid; simpl; lia|]. split; [exact demo_owned|].
  split; [eexists; split; reflexivity|]. split; reflexivity.
Qed.

(** ** C15 *)

(** After a history of calls that left a tag in the cache, all later calls return
    that tag, whatever heaps they see; and a tag gets into the cache exactly when
    a call returned it from resolution. *)
Theorem resolved_reference_is_stable : ∀ similar past future r0 r outs t,
  ref_run similar past r0 = (r, outs) → rc_tag r = Some t →
  ref_run similar future r = (r, map (λ _, Ok (Some t)) future).
Proof. exact (λ similar past future r0 r outs t _ H, ref_run_resolved similar future r t H). Qed.
Print Assumptions resolved_reference_is_stable.

Theorem only_real_tags_are_remembered : ∀ similar b h r r' t, rc_tag r = None →
  ref_step similar b h r = (r', Ok (Some t)) →
  (resolve similar h (rc_section r) (rc_name r) (rc_opt r) (rc_loc r) = Ok (Some t) ∧ rc_tag r' = Some t) ∨
  (b = true ∧ t = broken_tag (rc_section r) (rc_name r) (rc_loc r) ∧ r' = r).
Proof. exact ref_step_real. Qed.
Print Assumptions only_real_tags_are_remembered.

Theorem failures_are_not_remembered : ∀ similar b h r r' o, ref_step similar b h r = (r', o) →
  (∀ t, o ≠ Ok (Some t)) → r' = r ∧ rc_tag r = None.
Proof. exact ref_step_failed. Qed.
Print Assumptions failures_are_not_remembered.

Example reference_cache_example :
  ∃ t, snd (ref_run (λ _ _, false) [(false, []); (false, demo); (true, [])] (RefCell 3 "api" false loc0 None))
       = [NoFuel; Ok (Some t); Ok (Some t)].
Proof. eexists. reflexivity. Qed.

(** ** C16 *)

Theorem contains_is_descendant : ∀ h i sub, wf h → valid h i →
  ∃ b, contains h i sub = Some b ∧ (b = true ↔ descendant h i sub).
Proof. exact contains_spec. Qed.
Print Assumptions contains_is_descendant.

Theorem is_or_has_child_is_one_step : ∀ h i sub, valid h i →
  ∃ b, is_or_has_child h i sub = Some b ∧ (b = true ↔ i = sub ∨ child_of h i sub).
Proof. exact is_or_has_child_spec. Qed.
Print Assumptions is_or_has_child_is_one_step.

Theorem top_is_parentless_ancestor : ∀ h i r, wf h → valid h i →
  top h i = Some r ↔ is_top h r ∧ ancestor h r i.
Proof. exact top_spec. Qed.
Print Assumptions top_is_parentless_ancestor.

Theorem depth_is_distance_to_top : ∀ h i, wf h → valid h i →
  ∃ d r, depth h i = Some d ∧ is_top h r ∧ nsteps (parent_of h) d r i.
Proof. exact depth_spec. Qed.
Print Assumptions depth_is_distance_to_top.

(** Parents are allocated before children, so the nearest ancestor is the largest. *)
Theorem file_path_is_nearest : ∀ h i, wf h → valid h i →
  ∃ f, file_path h i = Some f ∧
   ((∃ a s, ancestor h a i ∧ h !! a = Some s ∧ s_path s = f ∧ f ≠ ""%string ∧
       ∀ b bs, ancestor h b i → h !! b = Some bs → s_path bs ≠ ""%string → ancestor h b a) ∨
    (f = ""%string ∧ ∀ b bs, ancestor h b i → h !! b = Some bs → s_path bs = ""%string)).
Proof. exact file_path_nearest. Qed.
Print Assumptions file_path_is_nearest.

Example tree_query_example : wf demo ∧ valid demo 5 ∧
  contains demo 0 5 = Some true ∧ contains demo 1 5 = Some false ∧ is_or_has_child demo 4 5 = Some true ∧
  top demo 5 = Some 0 ∧ depth demo 5 = Some 2 ∧ file_path demo 5 = Some "/b/r/ref.lit"%string.
Proof. split; [exact demo_wf|]. split; [unfold valid; simpl; lia|]. repeat split. Qed.

(** ** C17 *)

Theorem next_visits_split_pages_once : ∀ h r l, wf h → is_top h r → listing h s_split r l →
  l !! 0 = Some r ∧ NoDup l ∧ (∀ x, x ∈ l ↔ rtc (split_child h) r x) ∧
  ∀ k x, l !! k = Some x → next h x = Some (l !! S k).
Proof. exact next_enumerates. Qed.
Print Assumptions next_visits_split_pages_once.

Theorem split_listing_exists : ∀ h r, wf h → valid h r → ∃ l, listing h s_split r l.
Proof. exact (λ h r, listing_exists h s_split r). Qed.
Print Assumptions split_listing_exists.

Theorem prev_is_sibling_or_parent : ∀ h p ps k i, wf h → h !! p = Some ps → s_children ps !! k = Some i →
  prev h i = Some (match k with 0 => Some p | S k' => s_children ps !! k' end).
Proof. exact prev_child. Qed.
Print Assumptions prev_is_sibling_or_parent.

Theorem prev_of_top_is_nil : ∀ h r, is_top h r → prev h r = Some None.
Proof. exact prev_top. Qed.
Print Assumptions prev_of_top_is_nil.

Example next_example : wf demo ∧ is_top demo 0 ∧ listing demo s_split 0 [0; 1; 4; 5] ∧
  next demo 1 = Some (Some 4) ∧ next demo 5 = Some None ∧ prev demo 4 = Some (Some 1).
Proof.
  split; [exact demo_wf|]. split; [exact demo_top|]. split; [exact demo_split_listing|].
  repeat split; reflexivity.
Qed.

(** ** C41 *)

Theorem has_anchors_spec : ∀ h i, wf h → valid h i →
  ∃ b, has_anchors h i = Some b ∧
    (b = true ↔ ∃ x s t, rtc (inlined h) i x ∧ h !! x = Some s ∧ t ∈ s_tags s ∧ t_anchor t ≠ ""%string).
Proof. exact TreeProofs.has_anchors_spec. Qed.
Print Assumptions has_anchors_spec.

(** Exactly the anchored tags, in order. *)
Theorem anchor_tags_in_order : ∀ s,
  (∀ t, t ∈ anchor_tags s ↔ t ∈ s_tags s ∧ t_anchor t ≠ ""%string) ∧
  sublist (anchor_tags s) (s_tags s) ∧
  length (anchor_tags s) = length (filter (λ t, t_anchor t ≠ ""%string) (s_tags s)).
Proof. exact anchor_tags_spec. Qed.
Print Assumptions anchor_tags_in_order.

Example anchors_example : wf demo ∧ valid demo 1 ∧ has_anchors demo 1 = Some true ∧
  has_anchors demo 4 = Some false ∧
  option_map (λ s, map t_name (anchor_tags s)) (demo !! 2) = Some ["faq"%string].
Proof. split; [exact demo_wf|]. split; [unfold valid; simpl; lia|]. repeat split; reflexivity. Qed.

(** ** C48 *)

(** [d] steps up from [i] without passing a depth reset, to a section that is the
    top or whose parent resets the depth. *)
Theorem header_depth_follows_resets : ∀ h i, wf h → valid h i →
  ∃ d a, header_depth h i = Some (Nat.min 6 (d + 1)) ∧
    nsteps (λ x y, parent_of h x y ∧ ∀ xs, h !! x = Some xs → s_reset xs = false) d a i ∧
    (is_top h a ∨ ∃ p ps, parent_of h p a ∧ h !! p = Some ps ∧ s_reset ps = true).
Proof. exact header_depth_spec. Qed.
Print Assumptions header_depth_follows_resets.

Theorem header_depth_is_valid_html : ∀ h i, wf h → valid h i →
  ∃ n, header_depth h i = Some n ∧ 1 ≤ n ∧ n ≤ 6.
Proof. exact header_depth_range. Qed.
Print Assumptions header_depth_is_valid_html.

Example header_depth_example : wf demo ∧ valid demo 3 ∧ header_depth demo 3 = Some 2 ∧ header_depth demo 1 = Some 1.
Proof. split; [exact demo_wf|]. split; [unfold valid; simpl; lia|]. split; reflexivity. Qed.
