(** C39: which section the server answers with. *)
From Coq Require Import Ascii String.
From stdpp Require Import base tactics relations strings list.
From Verif Require Import GoBase StrProofs Ast Content Section TreeSpec TreeProofs TagProofs QueryProofs
  Render RenderSpec NavProofs Evaluate EvalFrame EvalInv BaseInv Collect CollectSpec CollectProofs BaseFacts LoadProofs
  Demo DemoDoc Props_Load Server.
Local Open Scope string_scope. Local Open Scope list_scope.

Lemma request_page name ext : request_tag ext ("/" +:+ name +:+ "." +:+ ext) = Some name.
Proof.
  unfold request_tag. destruct (String.eqb _ "/") eqn:E.
  { apply String.eqb_eq in E. change ("/" +:+ ?x) with (String "/" x) in E. injection E as E.
    apply (f_equal String.length) in E. rewrite slength_app in E. simpl in E. lia. }
  assert (∀ a b c, a +:+ b +:+ c = (a +:+ b) +:+ c) as A by (intros; by rewrite sapp_assoc).
  rewrite (A "/" name), has_suffix_app, <- (A "/" name), trim_prefix_app, trim_suffix_app. done.
Qed.

Lemma request_scope h r ext path : wf h → is_top h r →
  ∀ name, request_tag ext path = Some name →
  ∃ ts, find_tag h r name = Some ts ∧
    ∀ t, t ∈ ts ↔ ∃ x s, descendant h r x ∧ h !! x = Some s ∧ t ∈ s_tags s ∧ t_name t = name.
Proof.
  intros W T name _. destruct T as (rs & Hrs & Hp). assert (valid h r) as V by (by eapply lookup_lt_Some).
  destruct (filter_tags_all h (λ n, String.eqb n name) r W V) as (ts & E & A). exists ts. split; [done|].
  intros t. rewrite (all_tags_elem _ _ _ _ _ A). split; intros (x & s & H1 & H2 & H3 & H4); exists x, s.
  - split_and!; [|done|done|by apply String.eqb_eq].
    eapply (in_scope_tree h r r x W); [by exists rs|apply rtc_refl|done].
  - split_and!; [|done|done|by apply String.eqb_eq].
    eapply (in_scope_tree h r r x W); [by exists rs|apply rtc_refl|done].
Qed.

(** A page whose section is titled, with a tag no other section has, is served
    under its URL. *)
Theorem server_page : ∀ h r ext i s, wf h → is_top h r → tags_owned h → descendant h r i → is_page h i →
  h !! i = Some s → s_primary s ∈ s_tags s →
  (∀ j js t, descendant h r j → h !! j = Some js → t ∈ s_tags js → t_name t = t_name (s_primary s) → j = i) →
  ∃ url, section_url h ext i "" = Some url ∧ url = file_of h ext i ∧
    requested h r ext ("/" +:+ url) = Some (RSection i).
Proof.
  intros h r ext i s W T O D P Hs Hp Hu.
  assert (section_url h ext i "" = Some (file_of h ext i)) as Eu.
  { unfold section_url, fuel_of. cbn [gofix]. unfold section_url_F.
    assert (page_owner h i = Some i) as ->.
    { apply (page_owner_spec h i i W); [by eapply lookup_lt_Some|]. split; [done|apply rtc_refl]. }
    unfold file_of. rewrite Hs. simpl. rewrite Nat.eqb_refl. done. }
  exists (file_of h ext i). split_and!; [done|done|].
  unfold file_of. rewrite Hs. unfold requested. rewrite request_page.
  destruct (request_scope h r ext _ W T _ (request_page (t_name (s_primary s)) ext)) as (ts & E & Hts).
  rewrite E. simpl. assert (s_primary s ∈ ts) as Hin by (apply Hts; by exists i, s).
  destruct ts as [|t ts]; [by apply elem_of_nil in Hin|].
  destruct (Hts t) as [H _]. destruct H as (x & xs & Hx & Hxs & Ht & Hn); [left|].
  rewrite (O _ _ _ Hxs Ht). simpl. by rewrite (Hu _ _ _ Hx Hxs Ht Hn).
Qed.
Print Assumptions server_page.

(** In particular for every page of a book loaded with the base plugin, also when
    the processor has loaded other books, or this one, before. *)
Theorem server_loaded : ∀ E ord n path fs s s1 i,
  base_only E → (∀ k n, ord k n ≡ₚ seq 0 n) → history s →
  (∀ path mt e, e_fs E path = Some (mt, inr e) → wrapped_once e) →
  load_file E n path fs s = (s1, Ok i) →
  ∃ s', load E ord n path fs s = (s', Ok i) ∧
    ∀ j x, descendant (st_heap s') i j → is_page (st_heap s') j → st_heap s' !! j = Some x →
      s_primary x ≠ tag0 →
      (∀ k xs t, descendant (st_heap s') i k → st_heap s' !! k = Some xs → t ∈ s_tags xs →
        t_name t = t_name (s_primary x) → k = j) →
      ∀ ext, requested (st_heap s') i ext ("/" +:+ file_of (st_heap s') ext j) = Some (RSection j).
Proof.
  intros E ord n path fs s s1 i Hb Hord H Hpe Hl.
  destruct (collection_finds_every_target E ord n path fs s s1 i Hb Hord H Hpe Hl) as (s' & Hld & Hc).
  exists s'. split; [done|]. intros j x Hd Hp Hx Hne Hu ext.
  destruct (loaded_section_is_top _ _ _ _ _ _ _ _ H Hld) as [_ Ht].
  destruct (history_wf s H) as [W0 O0]. destruct (load_wf E ord n path fs s W0 O0) as [W O].
  rewrite Hld in W, O. simpl in W, O.
  destruct (Hc j x Hd Hx) as (names & ts & _ & Htags & Hprim).
  assert (s_primary x ∈ s_tags x) as Hin.
  { rewrite Htags, Hprim. destruct names as [|nm names]; simpl in *; [congruence|]. left. }
  destruct (server_page _ _ ext j x W Ht O Hd Hp Hx Hin Hu) as (url & _ & -> & R). exact R.
Qed.
Print Assumptions server_loaded.

(** "/" stands for the section tagged "index". *)
Theorem server_root : ∀ h r ext, requested h r ext "/" = requested h r ext ("/index." +:+ ext).
Proof.
  intros h r ext. unfold requested, request_tag. rewrite String.eqb_refl.
  destruct (String.eqb ("/index." +:+ ext) "/") eqn:E; [|done]. by apply String.eqb_eq in E.
Qed.
Print Assumptions server_root.

(** Paths of requests begin with a slash; this is the tag they name. *)
Definition names (ext path name : string) : Prop :=
  path = "/" ∧ name = "index" ∨ path = "/" +:+ name +:+ "." +:+ ext.

Lemma request_names ext path name : has_prefix "/" path = true →
  request_tag ext path = Some name ↔ names ext path name.
Proof.
  intros Hp. unfold names. destruct (String.eqb path "/") eqn:E.
  - apply String.eqb_eq in E as ->.
    assert (request_tag ext "/" = Some "index") as ->.
    { transitivity (request_tag ext ("/" +:+ "index" +:+ "." +:+ ext)); [reflexivity|apply request_page]. }
    split; [intros [= <-]; by left|]. intros [[_ ->]|H]; [done|].
    change ("/" +:+ ?x) with (String "/" x) in H. injection H as H.
    apply (f_equal String.length) in H. rewrite slength_app in H. simpl in H. lia.
  - split.
    + unfold request_tag. rewrite E. destruct (has_suffix _ _) eqn:Es; [|done]. intros [= H].
      apply has_suffix_spec in Es as [q ->]. right.
      destruct q as [|c q]; [done|]. change (String c q +:+ ?x) with (String c (q +:+ x)) in *.
      cbn [has_prefix] in Hp. rewrite andb_true_r in Hp. apply Ascii.eqb_eq in Hp. subst c.
      change (String "/" (q +:+ ?x)) with ("/" +:+ (q +:+ x)) in H.
      rewrite trim_prefix_app, trim_suffix_app in H. by subst q.
    + intros [[-> _]| ->]; [done|]. apply request_page.
Qed.

(** Whatever section is served has the tag the path names, and a path that names
    no tag is left to the file server. *)
Theorem server_response : ∀ h r ext path, wf h → is_top h r → tags_owned h → has_prefix "/" path = true →
  (∃ i s t, requested h r ext path = Some (RSection i) ∧
    descendant h r i ∧ h !! i = Some s ∧ t ∈ s_tags s ∧ names ext path (t_name t)) ∨
  (requested h r ext path = Some RFile ∧
    ∀ i s t, descendant h r i → h !! i = Some s → t ∈ s_tags s → ¬ names ext path (t_name t)).
Proof.
  intros h r ext path W T O Hp. unfold requested. destruct (request_tag ext path) as [name|] eqn:E.
  2:{ right. split; [done|]. intros i s t _ _ _ Hn. apply (request_names _ _ _ Hp) in Hn. congruence. }
  destruct (request_scope h r ext path W T name E) as (ts & Ef & Hts). rewrite Ef. simpl.
  destruct ts as [|t ts].
  - right. split; [done|]. intros i s t Hd Hs Ht Hn. apply (request_names _ _ _ Hp) in Hn.
    assert (t ∈ []) as X by (apply Hts; exists i, s; split_and!; congruence || done). by apply elem_of_nil in X.
  - left. destruct (Hts t) as [H _]. destruct H as (x & s & Hx & Hs & Ht & Hn); [left|].
    exists x, s, t. rewrite (O _ _ _ Hs Ht). split_and!; [done..|]. rewrite Hn. by apply request_names.
Qed.
Print Assumptions server_response.

Example ex_server : wf demo ∧ is_top demo 0 ∧ tags_owned demo ∧ is_page demo 4 ∧
  map (requested demo 0 "html") ["/"; "/ref.html"; "/how.html"; "/style.css"; "/nothing.html"] =
  map Some [RSection 0; RSection 4; RSection 3; RFile; RFile].
Proof.
  split_and!; [exact demo_wf|exact demo_top|exact demo_owned| |reflexivity].
  eexists. split; [reflexivity|]. simpl. eexists. by split.
Qed.

(** A page without a title is written to ".html" but never served, and the book's
    first page is not served under "/" unless it is tagged "index". *)
Definition untitled : heap :=
  [ mk 0 None [1] "/b/book.lit" "book" true false true []; new_section (Some 0) "" ].
Theorem server_untitled_refuted : wf untitled ∧ is_top untitled 0 ∧ tags_owned untitled ∧
  descendant untitled 0 1 ∧ is_page untitled 1 ∧
  requested untitled 0 "html" ("/" +:+ file_of untitled "html" 1) = Some RFile.
Proof.
  split_and!; [apply wfb_wf; by vm_compute|by eexists| | | |reflexivity].
  - intros x s t Hx Ht. destruct x as [|[|x]]; simplify_eq/=.
    + apply elem_of_list_singleton in Ht as ->. done.
    + by apply elem_of_nil in Ht.
  - apply rtc_once. eexists. split; [reflexivity|]. left.
  - eexists. split; [reflexivity|]. simpl. eexists. by split.
Qed.
Print Assumptions server_untitled_refuted.

Theorem server_front_refuted : is_top untitled 0 ∧ is_page untitled 0 ∧ requested untitled 0 "html" "/" = Some RFile.
Proof. split_and!; [by eexists| |reflexivity]. eexists. by split. Qed.
Print Assumptions server_front_refuted.
