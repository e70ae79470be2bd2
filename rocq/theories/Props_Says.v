(** C58: what String() says. *)
From Coq Require Import Ascii String Lia.
From stdpp Require Import base tactics relations strings list.
From Verif Require Import GoBase StrProofs Ast Content Section TreeSpec TreeProofs TagProofs QueryProofs Evaluate EvalProofs Collect
  BaseInv LoadProofs Demo DemoDoc HtmlLoad Sound StringEnds Says Props_String.
Local Open Scope string_scope.
Local Open Scope list_scope.

(** ** C58 *)

(** In any book: String() of a content that says something gives that. *)
Theorem string_says : ∀ similar broken h c s, wf h → tags_owned h → says broken h c s →
  ∃ n0, ∀ n, n0 ≤ n → cstring similar broken h n c = Ok s.
Proof. intros similar broken h c s W O. exact (said similar broken h W O c s). Qed.
Print Assumptions string_says.

(** In what is loaded with the base plugin these are all the texts there are. *)
Theorem string_says_exactly : ∀ similar broken s c r, base_history s → content_of (st_heap s) c →
  (∃ n, cstring similar broken (st_heap s) n c = Ok r) ↔ says broken (st_heap s) c r.
Proof.
  intros similar broken s c r H Hc. pose proof (content_of_sound s c H Hc) as Hs. pose proof (base_history_sturdy s H) as HS.
  destruct (history_wf s (base_history_history s H)) as [W _].
  assert (tags_owned (st_heap s)) as O by by apply owned.
  split.
  - intros [n E]. by eapply said_only.
  - intros Hr. destruct (said similar broken _ W O c r Hr) as [n0 E]. exists n0. by apply E.
Qed.
Print Assumptions string_says_exactly.

(** An item of several lines in an ordered list, after one that begins with an empty line. *)
Example list_says_example : says false demo
  (CList [CPara [CString "one"; CString "two"]; CSeq [CString (eol +:+ "a" +:+ eol +:+ eol); CString "b"]; CString eol] true)
  ("1. one two" +:+ eol +:+ eol +:+ "2. a" +:+ eol +:+ eol +:+ "  b" +:+ eol +:+ eol +:+ "3. " +:+ eol +:+ eol).
Proof.
  eapply says_list.
  - constructor; [eapply says_para; [repeat constructor|apply (para_text [] "one" ["two"]); [constructor|done]]|].
    constructor; [constructor; repeat constructor|]. repeat constructor.
  - eapply (items_cons true 1 _ _ "one two" _).
    { apply (item_lines _ [] "one two" []); [exact (trim_right_core ("one two" +:+ eol +:+ eol))|by constructor..|done]. }
    eapply (items_cons true 2 _ _ ("a" +:+ eol +:+ eol +:+ "  b") _).
    { apply (item_lines _ [""] "a" [""; "b"]); [exact (trim_right_core (eol +:+ "a" +:+ eol +:+ eol +:+ "b"))|by repeat constructor..|done]. }
    eapply (items_cons true 3 _ _ "" _); [|constructor].
    apply (item_empty _ []); [exact (trim_right_core eol)|constructor].
Qed.
Example list_says_string : cstring (λ _ _, false) false demo 0
  (CList [CPara [CString "one"; CString "two"]; CSeq [CString (eol +:+ "a" +:+ eol +:+ eol); CString "b"]; CString eol] true) =
  Ok ("1. one two" +:+ eol +:+ eol +:+ "2. a" +:+ eol +:+ eol +:+ "  b" +:+ eol +:+ eol +:+ "3. " +:+ eol +:+ eol).
Proof. reflexivity. Qed.

(** References in the demo book. *)
Example reference_says_example : wf demo ∧ tags_owned demo ∧
  says false demo (CRef 4 "why" None false loc0) "why" ∧
  says false demo (CRef 4 "faq" None false loc0) "{broken reference: faq: ambiguous target for tag 'faq'}" ∧
  says true demo (CRef 4 "nope" None false loc0) "{broken reference: nope}" ∧
  says false demo (CSection 4) "{section (/b/r/ref.lit): ref}".
Proof.
  assert (valid demo 4) as V by (unfold valid; simpl; lia).
  assert (∀ name, ∃ ts, filter_tags demo (λ n, String.eqb n name) 4 = Some ts ∧ all_tags demo 4 (λ n, String.eqb n name) ts) as F
    by (intros; by apply filter_tags_all; [apply demo_wf|]).
  split; [exact demo_wf|]. split; [exact demo_owned|]. split_and!.
  - destruct (F "why") as (ts & E & A). vm_compute in E. injection E as <-. eapply says_ref_title; [done|exact A|done|constructor].
  - destruct (F "faq") as (ts & E & A). vm_compute in E. injection E as <-. eapply says_ref_ambiguous; [done|done|exact A|simpl; lia].
  - destruct (F "nope") as (ts & E & A). vm_compute in E. injection E as <-. eapply says_ref_broken; [done|done|exact A|by right].
  - assert (∃ x, demo !! 4 = Some x ∧ s_path x = "/b/r/ref.lit" ∧ s_title x = CString "ref") as (x & Hx & Hp & Ht)
      by (eexists; split; [reflexivity|done]).
    change "{section (/b/r/ref.lit): ref}" with ("{section (" +:+ "/b/r/ref.lit" +:+ "): " +:+ "ref" +:+ "}").
    rewrite <- Hp. apply says_section; [done|]. rewrite Ht. constructor.
Qed.
