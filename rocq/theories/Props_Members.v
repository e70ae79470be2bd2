(** Theorems about what templates are told: C82. *)
From Coq Require Import Ascii String Lia.
From stdpp Require Import base tactics relations strings list.
From Verif Require Import GoBase Ast Content Section TreeSpec ContentSpec TagProofs QueryProofs Render Html TmplExec TmplMeaning Props_Refs
  MembersSpec MembersProofs Demo.
Local Open Scope string_scope. Local Open Scope list_scope.

(** What a field or a method of a section, a content, a tag or a definition gives a
    template is what MembersSpec.v says of it. *)
Theorem members_told similar broken h str v f args w : wf h →
  (∀ i, v = VSec i → ∃ r, is_top h r ∧ descendant h r i) →
  member similar broken h str v f args = Ok w → asked h str broken v f args w.
Proof. apply member_told. Qed.
Print Assumptions members_told.

(** All that MembersSpec.v lists is there; only the order of the tags that FindTag
    gives is not told. *)
Theorem members_answered similar broken h str v f args w : wf h → tags_owned h →
  (∀ sec name rc opt l, v = VCon (CRef sec name rc opt l) → valid h sec) →
  asked h str broken v f args w →
  ∃ w', member similar broken h str v f args = Ok w' ∧ (f ≠ "FindTag" → w' = w).
Proof. apply member_answers. Qed.
Print Assumptions members_answered.

(** So, but for FindTag, no template is told two things. *)
Theorem members_determined h str broken v f args w w' : wf h → tags_owned h →
  (∀ sec name rc opt l, v = VCon (CRef sec name rc opt l) → valid h sec) → f ≠ "FindTag" →
  asked h str broken v f args w → asked h str broken v f args w' → w = w'.
Proof.
  intros W O V N H H'. destruct (member_answers (λ _ _, false) _ _ _ _ _ _ _ W O V H) as (x & E & Hx).
  destruct (member_answers (λ _ _, false) _ _ _ _ _ _ _ W O V H') as (y & E' & Hy). rewrite <- (Hx N), <- (Hy N). congruence.
Qed.
Print Assumptions members_determined.

(** What a function gives, for sections and tags of one book, is what MembersSpec.v
    says of it, and nothing else it gives. *)
Theorem functions_give h r str ext html render f args v : wf h → is_top h r → passed h r args →
  apply_func h str ext html render f args = Ok v ↔ applied h str ext html render f args v.
Proof. intros W T P. split; [by apply (func_told _ _ _ _ _ r)|by apply (func_answers _ _ _ _ _ r)]. Qed.
Print Assumptions functions_give.

(** ** A book *)

Definition no_text : content → outcome error string := λ _, Panic.
Lemma demo_place i : i < 6 → ∀ j, VSec i = VSec j → ∃ r, is_top demo r ∧ descendant demo r j.
Proof. intros H j [= <-]. exists 0. split; [apply demo_top|by apply demo_desc]. Qed.

(** "how" is the second section in the first; the page after it is that of "ref",
    which it has no part of; "index" has it, but not as a child. *)
Example told_how :
  asked demo no_text false (VSec 3) "Number" [] (VStr "1.2") ∧
  asked demo no_text false (VSec 3) "Next" [] (VSec 4) ∧
  asked demo no_text false (VSec 3) "FilePath" [] (VStr "/b/index.lit") ∧
  asked demo no_text false (VSec 3) "PageDepth" [] (VInt 1) ∧
  asked demo no_text false (VSec 0) "Contains" [VSec 3] (VBool true) ∧
  asked demo no_text false (VSec 0) "IsOrHasChild" [VSec 3] (VBool false) ∧
  asked demo no_text false (VSec 1) "IsOrHasChild" [VSec 3] (VBool true) ∧
  asked demo no_text false (VSec 3) "IsOrHasChild" [VSec 1] (VBool false) ∧
  asked demo no_text false (VSec 1) "HasAnchors" [] (VBool true).
Proof.
  pose proof demo_wf as W. split_and!; (apply (members_told (λ _ _, false)); [exact W|apply demo_place; lia|vm_compute; reflexivity]).
Qed.

(** A reference to a tag that two sections have is broken. *)
Example told_broken :
  asked demo no_text true (VCon (CRef 3 "faq" None false loc0)) "Display" [] (VCon (CString "{broken reference: faq}")) ∧
  ¬ (∃ w, asked demo no_text false (VCon (CRef 3 "faq" None false loc0)) "Display" [] w).
Proof.
  split.
  - apply (members_told (λ _ _, false)); [exact demo_wf|done|vm_compute; reflexivity].
  - intros (w & H). assert (∀ sec name rc opt l, VCon (CRef 3 "faq" None false loc0) = VCon (CRef sec name rc opt l) → valid demo sec) as V.
    { intros sec name rc opt l [= <- _ _ _ _]. apply lookup_lt_is_Some. by eexists. }
    destruct (members_answered (λ _ _, false) _ _ _ _ _ _ _ demo_wf demo_owned V H) as (w' & E & _). vm_compute in E. discriminate E.
Qed.

Definition api_faq : tag := Tag "faq" (Some (CString "API FAQ")) (Some 5) "faq" None (Loc 3 2 20).
Lemma demo_passed : passed demo 0 [VTag api_faq] ∧ passed demo 0 [VSec 3].
Proof.
  split; split.
  - intros t Ht. rewrite elem_of_list_singleton in Ht. injection Ht as ->. exists 5. split; [reflexivity|apply demo_desc; lia].
  - intros i Hi. rewrite elem_of_list_singleton in Hi. discriminate Hi.
  - intros t Ht. rewrite elem_of_list_singleton in Ht. discriminate Ht.
  - intros i Hi. rewrite elem_of_list_singleton in Hi. injection Hi as ->. apply demo_desc; lia.
Qed.
Example functions_here :
  applied demo no_text "html" true (λ _, NoFuel) "url" [VTag api_faq] (VStr "api.html#faq") ∧
  applied demo no_text "html" true (λ _, NoFuel) "headerDepth" [VSec 3] (VInt 2) ∧
  applied demo no_text "txt" false (λ _, NoFuel) "joinLines" [VStr "> "; VStr ("a" +:+ String "010" "b")] (VStr ("a" +:+ String "010" "> b")) ∧
  ¬ applied demo no_text "txt" false (λ _, NoFuel) "headerDepth" [VSec 3] (VInt 2).
Proof.
  destruct demo_passed as [P1 P2]. pose proof demo_wf as W. pose proof demo_top as T. split_and!.
  - apply (functions_give _ 0); [exact W|exact T|exact P1|vm_compute; reflexivity].
  - apply (functions_give _ 0); [exact W|exact T|exact P2|vm_compute; reflexivity].
  - apply (functions_give _ 0); [exact W|exact T| |vm_compute; reflexivity].
    split; intros x Hx; rewrite !elem_of_cons, elem_of_nil in Hx; destruct Hx as [Hx|[Hx|[]]]; discriminate Hx.
  - intros H. apply (functions_give _ 0) in H; [|exact W|exact T|exact P2]. vm_compute in H. discriminate H.
Qed.
