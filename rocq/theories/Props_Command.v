(** C61: building a book. *)
From Coq Require Import Ascii String Lia.
From stdpp Require Import base tactics relations strings list.
From Verif Require Import GoBase StrProofs Ast Content Section TreeSpec TreeProofs TagProofs QueryProofs NavProofs Render RenderSpec WriterProofs
  Peg PegTotal Evaluate EvalProofs EvalFrame EvalInv Collect CollectSpec CollectProofs BaseInv BaseFacts LoadProofs
  Html HtmlSpec HtmlProofs HtmlRender HtmlLoad HtmlAnchors TextRender Json JsonSpec JsonProofs
  Props_Load Props_Parser Props_Pages Props_Html Props_Anchors Props_Refs Props_Server Props_Json Listed HtmlLinks UrlSpec UrlProofs Props_Links Command.
Local Open Scope string_scope.
Local Open Scope list_scope.

(** ** Reading files *)

Lemma reading_base d E : base_only E → base_only (reading d E).
Proof. done. Qed.

(** A file that exists is parsed, or has a parse error in it. *)
Lemma parse_file_cases path bytes :
  (∃ nd, go_parse bytes = PVal (VNode nd) ∧ parse_file path bytes = inl nd) ∨
  (∃ errs e l, go_parse bytes = PErr errs ∧ (e, l) ∈ errs ∧ parse_file path bytes = inr (EParse (ErrLoc path l 1)) ∧
     l_off l ≤ String.length bytes).
Proof.
  unfold parse_file. destruct (go_parse bytes) as [|errs|v] eqn:E.
  - by apply parse_terminates in E.
  - right. destruct (error_in_file _ _ E) as [(e & l & Hu) Hb]. rewrite Hu. exists errs, e, l.
    unfold unpack_error in Hu. destruct errs as [|x errs]; [done|]. injection Hu as ->.
    split_and!; [done|by left|done|]. by apply (Hb e l); left.
  - left. destruct (parse_shaped _ _ E) as (ps & -> & _). eauto.
Qed.

Lemma reading_errors d E : ∀ path mt e, e_fs (reading d E) path = Some (mt, inr e) → wrapped_once e.
Proof.
  intros path mt e H. simpl in H. destruct (d path) as [[t bytes]|]; [|done]. simpl in H. injection H as -> H.
  destruct (parse_file_cases path bytes) as [(nd & _ & E')|(errs & e' & l & _ & _ & E' & _)]; rewrite E' in H; [done|].
  by injection H as <-.
Qed.

(** ** The chosen section *)

Lemma choose_history E W o n s x : choose E W o n = (s, x) → history s.
Proof.
  assert (history (fst (load E (w_order W) n (o_in o) [FBase] (St [] [])))) as H0.
  { rewrite load_is_in. constructor; [constructor|done]. }
  unfold choose. destruct (load _ _ _ _ _ _) as [s1 [r|e| |]] eqn:El; try (by intros [= <- _]).
  destruct (negb (String.eqb (o_tag o) "")).
  { destruct (find_tag _ _ _) as [[|t ts]|]; try (by intros [= <- _]). destruct (t_section t); by intros [= <- _]. }
  destruct (negb (String.eqb (o_path o) "")); [|by intros [= <- _]].
  assert (history (fst (load_in E (w_order W) n (Some r) (o_path o) [FBase] s1))) as H1.
  { constructor; [done|]. destruct (loaded_section_is_top _ _ _ _ _ _ _ _ history_start El) as [_ (x1 & Hx & _)].
    by eapply lookup_lt_Some. }
  destruct (load_in _ _ _ _ _ _ _) as [s2 [i|e| |]]; by intros [= <- _].
Qed.

Lemma load_in_facts E ord n p path fs s s' i : wf (st_heap s) → p < length (st_heap s) →
  load_in E ord n (Some p) path fs s = (s', Ok i) →
  i = length (st_heap s) ∧ (∃ x, st_heap s' !! i = Some x ∧ s_parent x = Some p) ∧
  ∀ j x, st_heap s !! j = Some x → ∃ ts, st_heap s' !! j = Some (add_tags j ts x).
Proof.
  intros Hw Hp Hl. destruct (frame_eval_rel E) as [Hrefl Htrans Hinv Hbody Huse Hcache Hchild Hloc Hatt Hla Hm].
  pose proof (evaluate_file_child E frame (eval E n) Hrefl Htrans Hbody Huse Hcache
    (λ self acc nd s, eval_frame E n self acc nd s) (Some p) path fs s) as Hf. cbv zeta in *.
  unfold load_in, mbind in Hl.
  destruct (evaluate_file E (eval E n) (Some p) path fs s) as [s1 [k|e| |]] eqn:Ef; try done. simpl in Hf.
  destruct Hf as [[_ Hno]|[HF Hi]]; [by destruct (Hno k)|]. specialize (Hi _ eq_refl). subst k.
  destruct HF as [Hw2 Hl2 Ho Hs Hn Ht].
  { by apply alloc_wf. }
  { unfold valid. simpl. rewrite app_length. simpl. lia. }
  pose proof (run_stages_shape ord (length (st_heap s)) s1) as HS. rewrite Hl in HS. destruct HS as [_ HS]. cbn [fst] in HS.
  assert (i = length (st_heap s)) as ->.
  { unfold run_stages in Hl. destruct (collect _ _ _ _ _) as [[h k]|e| |]; congruence. }
  split; [done|]. split.
  - destruct (Hs (new_section (Some p) path)) as (x' & Hx' & G).
    { simpl. by apply list_lookup_middle. }
    destruct (HS _ _ Hx') as (ts & Hts). eexists. split; [exact Hts|]. simpl. by rewrite (g_parent _ _ _ G).
  - intros j x Hx. apply HS. pose proof (lookup_lt_Some _ _ _ Hx). rewrite Ho; simpl.
    + by apply lookup_app_l_Some.
    + rewrite app_length. simpl. lia.
    + lia.
Qed.

(** What the options choose: the whole book, the section of a tag of the book, or a
    file loaded as if the book were its parent. *)
Definition chosen (E : env) (W : world) (o : options) (n : nat) (s : st) (r i : nat) : Prop :=
  ∃ s0, load E (w_order W) n (o_in o) [FBase] (St [] []) = (s0, Ok r) ∧
    (o_tag o = "" ∧ o_path o = "" ∧ s = s0 ∧ i = r ∨
     o_tag o ≠ "" ∧ s = s0 ∧ descendant (st_heap s) r i ∧
       (∃ x t, st_heap s !! i = Some x ∧ t ∈ s_tags x ∧ t_name t = o_tag o) ∨
     o_tag o = "" ∧ o_path o ≠ "" ∧ load_in E (w_order W) n (Some r) (o_path o) [FBase] s0 = (s, Ok i) ∧
       i = length (st_heap s0)).

Lemma choose_chosen E W o n s r i : (∀ e s', load E (w_order W) n (o_in o) [FBase] (St [] []) = (s', e) → tags_owned (st_heap s')) →
  choose E W o n = (s, Ok (r, i)) → chosen E W o n s r i.
Proof.
  intros Hown. unfold choose, chosen. destruct (load _ _ _ _ _ _) as [s0 [r0|e| |]] eqn:El; try done.
  specialize (Hown _ _ eq_refl).
  destruct (loaded_section_is_top _ _ _ _ _ _ _ _ history_start El) as [_ T].
  assert (history s0) as H0.
  { replace s0 with (fst (load_in E (w_order W) n None (o_in o) [FBase] (St [] []))); [constructor; [constructor|done]|].
    by rewrite <- load_is_in, El. }
  destruct (history_wf _ H0) as [W0 _].
  destruct (String.eqb_spec (o_tag o) "") as [Et|Et]; cbn [negb].
  - destruct (String.eqb_spec (o_path o) "") as [Ep|Ep]; cbn [negb].
    + intros [= <- <- <-]. exists s0. split; [done|]. left. done.
    + destruct (load_in _ _ _ _ _ _ _) as [s1 [k|e| |]] eqn:Ei; try done. intros [= <- <- <-]. exists s0. split; [done|].
      right. right. split_and!; [done..|]. destruct T as (x & Hx & _). apply lookup_lt_Some in Hx.
      by destruct (load_in_facts _ _ _ _ _ _ _ _ _ W0 Hx Ei) as [? _].
  - destruct (request_scope (st_heap s0) r0 "html" ("/" +:+ o_tag o +:+ "." +:+ "html") W0 T (o_tag o) (request_page _ _)) as (ts & Ef & Hts).
    rewrite Ef. destruct ts as [|t ts]; [done|]. destruct (proj1 (Hts t)) as (x & sx & Hd & Hx & Ht & Hn); [by left|].
    rewrite (Hown _ _ _ Hx Ht). intros [= <- <- <-]. exists s0. split; [done|]. right. left. split_and!; [done..|]. eauto.
Qed.

(** ** C61 *)

(** The section that is rendered. *)
Theorem build_chooses : ∀ E W o n s r i, choose E W o n = (s, Ok (r, i)) → chosen E W o n s r i.
Proof.
  intros E W o n s r i. apply choose_chosen. intros e s' El.
  assert (history s') as H0.
  { replace s' with (fst (load_in E (w_order W) n None (o_in o) [FBase] (St [] []))); [constructor; [constructor|done]|].
    by rewrite <- load_is_in, El. }
  by destruct (history_wf _ H0).
Qed.
Print Assumptions build_chooses.

(** The following hold for whatever gives the pages, in particular for [build].
    A tag is unknown iff no section of the book has it; nothing is written then. *)
Theorem build_unknown_tag : ∀ E W pg o n fs fs' name,
  build_with E W pg o n fs = (fs', Err (FUnknownTag name)) ↔
  fs' = fs ∧ name = o_tag o ∧ name ≠ "" ∧
  ∃ s r, load E (w_order W) n (o_in o) [FBase] (St [] []) = (s, Ok r) ∧
    ∀ i x t, descendant (st_heap s) r i → st_heap s !! i = Some x → t ∈ s_tags x → t_name t ≠ name.
Proof.
  intros E W pg o n fs fs' name.
  assert (∀ s0 r0, load E (w_order W) n (o_in o) [FBase] (St [] []) = (s0, Ok r0) →
    ∃ ts, find_tag (st_heap s0) r0 (o_tag o) = Some ts ∧
      ∀ t, t ∈ ts ↔ ∃ x s, descendant (st_heap s0) r0 x ∧ st_heap s0 !! x = Some s ∧ t ∈ s_tags s ∧ t_name t = o_tag o) as HT.
  { intros s0 r0 El. assert (history s0) as H0.
    { replace s0 with (fst (load_in E (w_order W) n None (o_in o) [FBase] (St [] []))); [constructor; [constructor|done]|].
      by rewrite <- load_is_in, El. }
    destruct (history_wf _ H0) as [W0 _].
    destruct (loaded_section_is_top _ _ _ _ _ _ _ _ history_start El) as [_ T].
    exact (request_scope (st_heap s0) r0 "html" ("/" +:+ o_tag o +:+ "." +:+ "html") W0 T (o_tag o) (request_page _ _)). }
  split.
  - intros H. unfold build_with in H.
    destruct (choose E W o n) as [s [[r i]|e| |]] eqn:Ec; try done.
    + exfalso. revert H. cbv zeta. destruct (String.eqb (o_out o) ""); [by destruct (pg _ _)|].
      destruct (w_mkdir W); [|done]. destruct (write_section _ _ _ _ _ _) as [[fs1 [e|]]|]; try done.
      destruct (o_index o); [|done]. by destruct (write_search_index _ _ _ _ _ _ _ _).
    + injection H as <- ->. split; [done|]. revert Ec. unfold choose.
      destruct (load _ _ _ _ _ _) as [s0 [r0|e0| |]] eqn:El; try done.
      destruct (HT _ _ eq_refl) as (ts & Ef & Hts).
      destruct (String.eqb_spec (o_tag o) "") as [Et|Et]; cbn [negb].
      { destruct (negb _); [|done]. by destruct (load_in _ _ _ _ _ _ _) as [? []]. }
      rewrite Ef. destruct ts as [|t ts]; [|by destruct (t_section t)]. intros [= _ <-]. split_and!; [done..|].
      exists s0, r0. split; [done|]. intros i x t Hd Hx Ht Hn.
      assert (t ∈ []) as X by (apply Hts; eauto 10). by apply elem_of_nil in X.
  - intros (-> & -> & Hne & s & r & El & Hno). unfold build_with, choose. rewrite El.
    rewrite (proj2 (String.eqb_neq _ _) Hne). cbn [negb].
    destruct (HT _ _ El) as (ts & Ef & Hts). rewrite Ef. destruct ts as [|t ts]; [done|].
    destruct (proj1 (Hts t)) as (x & sx & Hd & Hx & Ht & Hn); [by left|]. by destruct (Hno _ _ _ Hd Hx Ht).
Qed.
Print Assumptions build_unknown_tag.

(** Without a destination the section's page is printed and no file changes. *)
Theorem build_prints : ∀ E W pg o n fs fs' out, o_out o = "" → build_with E W pg o n fs = (fs', Ok out) →
  fs' = fs ∧ ∃ s r i, chosen E W o n s r i ∧ pg (st_heap s) i = Ok out.
Proof.
  intros E W pg o n fs fs' out Ho. unfold build_with. destruct (choose E W o n) as [s [[r i]|e| |]] eqn:Ec; try done.
  rewrite Ho. cbn [String.eqb]. destruct (pg _ _) eqn:Ep; try done. intros [= <- <-].
  split; [done|]. exists s, r, i. split; [|done]. by apply build_chooses.
Qed.
Print Assumptions build_prints.

Lemma history_valid s r i E W o n : choose E W o n = (s, Ok (r, i)) → wf (st_heap s) ∧ valid (st_heap s) i.
Proof.
  intros Ec. pose proof (choose_history _ _ _ _ _ _ Ec) as H. destruct (history_wf _ H) as [Wh _]. split; [done|].
  destruct (build_chooses _ _ _ _ _ _ _ Ec) as (s0 & El & [(_ & _ & -> & ->)|[(_ & -> & Hd & (x & t & Hx & _))|(_ & _ & Ei & ->)]]).
  - destruct (loaded_section_is_top _ _ _ _ _ _ _ _ history_start El) as [_ (x & Hx & _)]. by eapply lookup_lt_Some.
  - by eapply lookup_lt_Some.
  - destruct (loaded_section_is_top _ _ _ _ _ _ _ _ history_start El) as [_ (x & Hx & _)]. apply lookup_lt_Some in Hx.
    assert (wf (st_heap s0)) as W0.
    { assert (history s0) as H0.
      { replace s0 with (fst (load_in E (w_order W) n None (o_in o) [FBase] (St [] []))); [constructor; [constructor|done]|].
        by rewrite <- load_is_in, El. }
      by destruct (history_wf _ H0). }
    destruct (load_in_facts _ _ _ _ _ _ _ _ _ W0 Hx Ei) as (_ & (y & Hy & _) & _). by eapply lookup_lt_Some.
Qed.

(** With a destination: the files of the pages of the section, and the index if
    it was asked for. *)
Theorem build_writes : ∀ E W pg o n fs fs' out, o_out o ≠ "" → build_with E W pg o n fs = (fs', Ok out) →
  out = "" ∧ ∃ s r i pages, chosen E W o n s r i ∧ pages_of (st_heap s) i pages ∧
    (∀ j, j ∈ pages → ∃ bytes, pg (st_heap s) j = Ok bytes ∧
       ((∀ k, k ∈ pages → file_of (st_heap s) (extension o) k = file_of (st_heap s) (extension o) j → k = j) →
        ¬ (o_index o = true ∧ file_of (st_heap s) (extension o) j = "search_index.json") →
        assoc_get (file_of (st_heap s) (extension o) j) fs' = Some bytes)) ∧
    (∀ name, (∀ j, j ∈ pages → file_of (st_heap s) (extension o) j ≠ name) →
       ¬ (o_index o = true ∧ name = "search_index.json") → assoc_get name fs' = assoc_get name fs) ∧
    (o_index o = true → ∃ l idx, listing (st_heap s) (λ _, true) r l ∧
       search_index (cstring (e_similar E) (e_broken E) (st_heap s) (e_jumps E)) (st_heap s) (extension o) r = Ok idx ∧
       assoc_get "search_index.json" fs' = Some (json_index (w_short W) idx)).
Proof.
  intros E W pg o n fs fs' out Ho. unfold build_with. destruct (choose E W o n) as [s [[r i]|e| |]] eqn:Ec; try done. cbv zeta.
  rewrite (proj2 (String.eqb_neq _ _) Ho). destruct (w_mkdir W); [|done].
  destruct (history_valid _ _ _ _ _ _ _ Ec) as [Wh V].
  destruct (listing_exists (st_heap s) (λ _, true) i Wh V) as (l & L).
  set (pages := List.filter (page_b (st_heap s)) l).
  assert (pages_of (st_heap s) i pages) as Hpg by (by exists l).
  destruct (write_section _ _ _ _ _ _) as [[fs1 [e|]]|] eqn:Ew; try done.
  destruct (write_section_success _ _ _ _ _ _ _ _ Wh Hpg Ew) as (H1 & H2 & H3).
  intros Hres.
  assert (out = "" ∧ (o_index o = false ∧ fs1 = fs' ∨ o_index o = true ∧ ∃ idx,
    search_index (cstring (e_similar E) (e_broken E) (st_heap s) (e_jumps E)) (st_heap s) (extension o) r = Ok idx ∧
    fs' = assoc_set "search_index.json" (json_index (w_short W) idx) fs1)) as [-> Hfs].
  { destruct (o_index o); [|injection Hres as <- <-; eauto]. unfold write_search_index in Hres.
    destruct (search_index _ _ _ _) as [idx|e| |]; try done. cbn [obind] in Hres.
    destruct (w_open W "search_index.json"); try done. injection Hres as <- <-. split; [done|]. right. eauto. }
  clear Hres. split; [done|]. exists s, r, i, pages. split; [by apply build_chooses|]. split; [done|].
  assert (∀ name, ¬ (o_index o = true ∧ name = "search_index.json") → assoc_get name fs' = assoc_get name fs1) as Hget.
  { intros name Hn. destruct Hfs as [[_ ->]|(Hi & idx & _ & ->)]; [done|]. rewrite assoc_get_set.
    destruct (String.eqb_spec "search_index.json" name) as [<-|]; [|done]. by destruct Hn. }
  split; [|split].
  - intros j Hj. specialize (H1 j Hj). specialize (H2 j Hj). unfold engine_with in H1, H2.
    destruct (pg (st_heap s) j) as [bytes|[]| |]; try done. exists bytes. split; [done|]. intros Hu Hn.
    rewrite Hget by done. by apply H2.
  - intros name Hn Hi. rewrite Hget by done. by apply H3.
  - intros Hi. destruct Hfs as [[? _]|(_ & idx & Hidx & ->)]; [congruence|].
    assert (valid (st_heap s) r) as Vr.
    { destruct (build_chooses _ _ _ _ _ _ _ Ec) as (s0 & El & Hc).
      destruct (loaded_section_is_top _ _ _ _ _ _ _ _ history_start El) as [_ (x & Hx & _)].
      destruct Hc as [(_ & _ & -> & ->)|[(_ & -> & _ & _)|(_ & _ & Ei & ->)]]; try by eapply lookup_lt_Some.
      assert (wf (st_heap s0)) as W0.
      { assert (history s0) as H0.
        { replace s0 with (fst (load_in E (w_order W) n None (o_in o) [FBase] (St [] []))); [constructor; [constructor|done]|].
          by rewrite <- load_is_in, El. }
        by destruct (history_wf _ H0). }
      destruct (load_in_facts _ _ _ _ _ _ _ _ _ W0 (lookup_lt_Some _ _ _ Hx) Ei) as (_ & _ & K).
      destruct (K _ _ Hx) as (ts & Hts). by eapply lookup_lt_Some. }
    destruct (listing_exists (st_heap s) (λ _, true) r Wh Vr) as (lr & Lr). exists lr, idx. split_and!; [done..|].
    rewrite assoc_get_set. by rewrite String.eqb_refl.
Qed.
Print Assumptions build_writes.

(** The files a build writes have the extension that was asked for. *)
Theorem build_names : ∀ E W pg o n fs fs' out name, o_out o ≠ "" → build_with E W pg o n fs = (fs', Ok out) →
  assoc_get name fs' ≠ assoc_get name fs →
  (o_index o = true ∧ name = "search_index.json") ∨ ∃ base, name = base +:+ "." +:+ match o_text o with "" => "html" | ext => ext end.
Proof.
  intros E W pg o n fs fs' out name Ho Hb Hn.
  destruct (build_writes _ _ _ _ _ _ _ _ Ho Hb) as (_ & s & r & i & pages & _ & Hpg & _ & H & _).
  destruct (decide (o_index o = true ∧ name = "search_index.json")) as [Hi|Hi]; [by left|right].
  destruct (decide (Exists (λ j, file_of (st_heap s) (extension o) j = name) pages)) as [(j & Hj & <-)%Exists_exists|Hx].
  - apply (pages_of_elem _ _ _ j) in Hpg. destruct (proj1 Hpg Hj) as [Hp _].
    assert (∃ x, st_heap s !! j = Some x) as [x Hx].
    { unfold is_page in Hp. destruct (st_heap s !! j) as [x|] eqn:E0; eauto. naive_solver. }
    unfold file_of, extension. rewrite Hx. exists (t_name (s_primary x)). by destruct (o_text o).
  - exfalso. apply Hn. apply H; [|done]. intros j Hj Hf. apply Hx, Exists_exists. eauto.
Qed.
Print Assumptions build_names.

Lemma write_fail h ok ext eng r pages fs fs' e : wf h → pages_of h r pages →
  write_section h ok ext eng r fs = Some (fs', Some e) →
  ∃ l1 i l2, pages = l1 ++ i :: l2 ∧
    (∀ j, j ∈ l1 → snd (eng j) = None) ∧
    (∀ j, j ∈ l1 → (∀ k, k ∈ l1 ++ [i] → file_of h ext k = file_of h ext j → k = j) →
       assoc_get (file_of h ext j) fs' = Some (fst (eng j))) ∧
    (ok (file_of h ext i) = false ∧ e = EStat (file_of h ext i) ∨ snd (eng i) = Some e) ∧
    (∀ name, (∀ j, j ∈ l1 ++ [i] → file_of h ext j ≠ name) → assoc_get name fs' = assoc_get name fs).
Proof.
  intros W P E. pose proof (pages_of_nodup _ _ _ W P) as N.
  rewrite (write_section_spec _ _ _ _ _ _ _ W P) in E. injection E as E.
  destruct (write_pages_err _ _ _ _ _ _ _ _ E) as (l1 & i & l2 & fs1 & -> & E1 & Hr).
  exists l1, i, l2.
  assert (∀ name, file_of h ext i ≠ name → assoc_get name fs' = assoc_get name fs1) as G.
  { intros name Hn. destruct Hr as [(_ & _ & ->)|(_ & _ & ->)]; [done|]. rewrite assoc_get_set.
    by destruct (String.eqb_spec (file_of h ext i) name). }
  split_and!; [done| | | |].
  - intros j Hj. by eapply write_pages_ok.
  - intros j Hj Hu. apply stdpp.list.NoDup_app in N as (N1 & N2 & _).
    rewrite G.
    2:{ intros En. apply (N2 j Hj). rewrite <- (Hu i); [by left|set_solver|done]. }
    apply elem_of_list_split in Hj as (la & lb & ->). eapply write_pages_last; [done|].
    intros k Hk Ek. assert (k = j) as -> by (apply Hu; [rewrite !elem_of_app, elem_of_cons; tauto|done]).
    apply stdpp.list.NoDup_app in N1 as (_ & _ & N1). by apply stdpp.list.NoDup_cons in N1 as [? _].
  - destruct Hr as [(? & ? & _)|(_ & He & _)]; auto.
  - intros name Hn. pose proof (write_pages_frame h ok ext eng l1 fs name) as F.
    rewrite E1 in F. simpl in F. rewrite G by (apply Hn; set_solver). apply F. intros j Hj. apply Hn. set_solver.
Qed.

(** Failure: nothing is written before all is loaded; afterwards the first page that
    fails is the last one touched. *)
Theorem build_fails : ∀ E W pg o n fs fs' e, build_with E W pg o n fs = (fs', Err e) →
  match e with
  | FLoad _ | FUnknownTag _ | FMkdir | FRender _ => fs' = fs
  | FWrite e => ∃ s r i pages l1 j l2, chosen E W o n s r i ∧ pages_of (st_heap s) i pages ∧ pages = l1 ++ j :: l2 ∧
      (∀ k, k ∈ l1 → ∃ bytes, pg (st_heap s) k = Ok bytes ∧
         ((∀ k', k' ∈ l1 ++ [j] → file_of (st_heap s) (extension o) k' = file_of (st_heap s) (extension o) k → k' = k) →
          assoc_get (file_of (st_heap s) (extension o) k) fs' = Some bytes)) ∧
      (w_open W (file_of (st_heap s) (extension o) j) = false ∧ e = EStat (file_of (st_heap s) (extension o) j) ∨
       pg (st_heap s) j = Err (RTag e) ∨
       (∀ bytes, pg (st_heap s) j ≠ Ok bytes) ∧ (∀ e', pg (st_heap s) j ≠ Err (RTag e')) ∧ e = EPlugin "rendering") ∧
      (∀ name, (∀ k, k ∈ l1 ++ [j] → file_of (st_heap s) (extension o) k ≠ name) → assoc_get name fs' = assoc_get name fs)
  | FIndex _ => o_index o = true ∧ build_with E W pg (Options (o_in o) (o_out o) (o_tag o) (o_path o) false (o_text o)) n fs = (fs', Ok "")
  end.
Proof.
  intros E W pg o n fs fs' e. unfold build_with. destruct (choose E W o n) as [s [[r i]|e'| |]] eqn:Ec; try done.
  2:{ intros [= <- <-]. destruct e'; try done; exfalso; revert Ec; clear; unfold choose;
      destruct (load _ _ _ _ _ _) as [s0 [r0|e0| |]]; try done;
      (destruct (negb _); [destruct (find_tag _ _ _) as [[|t ts]|]; try done; by destruct (t_section t)|]);
      (destruct (negb _); [|done]); by destruct (load_in _ _ _ _ _ _ _) as [? []]. }
  cbv zeta. destruct (String.eqb (o_out o) "") eqn:Eo.
  { destruct (pg _ _); try done. by intros [= <- <-]. }
  destruct (w_mkdir W) eqn:Em; [|by intros [= <- <-]].
  destruct (history_valid _ _ _ _ _ _ _ Ec) as [Wh V].
  destruct (listing_exists (st_heap s) (λ _, true) i Wh V) as (l & L).
  set (pages := List.filter (page_b (st_heap s)) l).
  assert (pages_of (st_heap s) i pages) as Hpg by (by exists l).
  destruct (write_section _ _ _ _ _ _) as [[fs1 [e1|]]|] eqn:Ew; try done.
  - intros [= <- <-]. destruct (write_fail _ _ _ _ _ _ _ _ _ Wh Hpg Ew) as (l1 & j & l2 & Hp & H1 & H1' & H2 & H3).
    exists s, r, i, pages, l1, j, l2. split; [by apply build_chooses|]. split_and!; [done..| | |done].
    + intros k Hk. specialize (H1 k Hk). specialize (H1' k Hk). unfold engine_with in H1, H1'. destruct (pg (st_heap s) k) as [?|[]| |]; try done. eauto.
    + destruct H2 as [H2|H2]; [by left|right]. unfold engine_with in H2. destruct (pg (st_heap s) j) as [b|[]| |]; try done;
        simpl in H2; injection H2 as <-; auto.
  - destruct (o_index o) eqn:Ei; [|done].
    destruct (write_search_index _ _ _ _ _ _ _ _) as [fs2|e2| |] eqn:Ex; try done. intros [= <- <-]. split; [done|].
    change (choose E W (Options (o_in o) (o_out o) (o_tag o) (o_path o) false (o_text o)) n) with (choose E W o n). rewrite Ec.
    cbn [o_out o_index]. rewrite Eo.
    change (extension (Options (o_in o) (o_out o) (o_tag o) (o_path o) false (o_text o))) with (extension o).
    by rewrite Ew.
Qed.
Print Assumptions build_fails.

(** *** The site *)

(** Every page of the site is well-formed, and every link of it that the author did
    not write leads to a file of the site and, if it names a place, to an anchor in it. *)
Theorem build_site : ∀ d E W o n m fs fs' out, base_only E → (∀ k n, w_order W k n ≡ₚ seq 0 n) →
  (∀ k c, w_force W k = Some c → clean c = true) → e_broken E = false →
  o_out o ≠ "" → o_tag o = "" → o_path o = "" → o_text o = "" →
  build (reading d E) W o n m fs = (fs', Ok out) →
  ∃ s r pages, load (reading d E) (w_order W) n (o_in o) [FBase] (St [] []) = (s, Ok r) ∧ pages_of (st_heap s) r pages ∧
    ((∀ j x, st_heap s !! j = Some x → s_style x = "" ∨ s_style x = "section") → plain_names (st_heap s) →
     (∀ j k, j ∈ pages → k ∈ pages → file_of (st_heap s) "html" j = file_of (st_heap s) "html" k → j = k) →
     ∀ j, j ∈ pages → ∃ bytes ts, assoc_get (file_of (st_heap s) "html" j) fs' = Some bytes ∧
       tokens bytes = Some ts ∧ balanced ts ∧ Forall from_template ts ∧
       ∀ v, has_href ts v →
         (∃ c u, on_pages (st_heap s) (w_force W) c ∧ u ∈ link_targets c ∧ v = url_normalize (url_filter u)) ∨
         to_partial (st_heap s) v ∨
         ∃ k place bytes' ts', k ∈ pages ∧ opens v = Some (file_of (st_heap s) "html" k, place) ∧
           assoc_get (file_of (st_heap s) "html" k) fs' = Some bytes' ∧ tokens bytes' = Some ts' ∧
           ∀ a, place = Some a → TOpen "a" [("id", a)] ∈ ts').
Proof.
  intros d E W o n m fs fs' out Hb Hord Hf Hbr Ho Ht Hp Hx H.
  destruct (build_writes _ _ _ _ _ _ _ _ Ho H) as (_ & s & r & i & pages & (s0 & El & Hc) & Hpg & HP & _ & _).
  destruct Hc as [(_ & _ & -> & ->)|[(? & _)|(_ & ? & _)]]; [|done..].
  exists s0, r, pages. split; [done|]. split; [done|]. intros Hst Hpl Hu.
  assert (extension o = "html") as Hext by (unfold extension; by rewrite Hx). rewrite Hext in HP.
  assert (∀ j, j ∈ pages → ∃ bytes, html_page (e_similar E) false (st_heap s0) (w_force W)
     (cstring (e_similar E) false (st_heap s0) (e_jumps E)) m j = Ok bytes ∧
     assoc_get (file_of (st_heap s0) "html" j) fs' = Some bytes) as HP'.
  { intros j Hj. destruct (HP j Hj) as (bytes & Eb & Hg). exists bytes. split.
    - unfold page in Eb. rewrite Hx in Eb. cbn [String.eqb] in Eb. simpl in Eb. by rewrite Hbr in Eb.
    - apply Hg; [intros k Hk; by apply Hu|]. intros [_ En]. unfold file_of in En.
      destruct (st_heap s0 !! j) as [x|]; [|done].
      assert (has_suffix "html" (t_name (s_primary x) +:+ "." +:+ "html") = true) as Hs.
      { assert (∀ a b c, a +:+ b +:+ c = (a +:+ b) +:+ c) as A by (intros; by rewrite sapp_assoc).
        rewrite A. apply has_suffix_app. }
      rewrite En in Hs. vm_compute in Hs. done. }
  intros j Hj. destruct (HP' j Hj) as (bytes & Eb & Hg).
  assert (base_history s0) as Hs0.
  { replace s0 with (fst (load_in (reading d E) (w_order W) n None (o_in o) [FBase] (St [] []))).
    - constructor; [constructor|by apply reading_base|done].
    - by rewrite <- load_is_in, El. }
  destruct (base_pages_wellformed s0 _ _ _ _ _ _ _ Hs0 ltac:(intros k y Hy; by destruct (Hst k y Hy) as [-> | ->]) Hf Eb)
    as (ts & Hts & Hbal & Hft).
  exists bytes, ts. split_and!; [done..|].
  destruct (site_links (reading d E) (w_order W) n (o_in o) [FBase] s0 r (reading_base d E Hb) Hord (reading_errors d E) El Hst Hpl
    _ _ _ _ _ _ Hf Eb) as (ts' & Hts' & HL).
  assert (ts' = ts) as -> by congruence. intros v Hv. destruct (HL v Hv) as [HA|[HA|(k & place & Hk & Dk & Hop & HA)]]; [by left|by right; left|].
  right. right.
  assert (k ∈ pages) as Hkp by (apply (pages_are_pages _ _ _ _ Hpg); done).
  destruct (HP' k Hkp) as (bytes' & Eb' & Hg').
  destruct (base_pages_wellformed s0 _ _ _ _ _ _ _ Hs0 ltac:(intros k' y Hy; by destruct (Hst k' y Hy) as [-> | ->]) Hf Eb')
    as (ts2 & Hts2 & _ & _).
  exists k, place, bytes', ts2. split_and!; [done..|]. intros a Ha.
  destruct (HA a Ha _ _ _ _ _ _ Hf Eb') as (ts3 & Hts3 & Hin). congruence.
Qed.
Print Assumptions build_site.

(** *** A book in bytes *)

Definition book_disk : disk := λ p,
  if String.eqb p "/b/index.lit" then Some (1, "\title{The Book}{book}

\split-sections

See \reference{faq} & \link{elsewhere}{http://example.com}.

\table-of-contents

\section{
  \title{Intro}

  {- not shown -}
  Hello \bold{there}.
}

\include-section{sub.lit}
")
  else if String.eqb p "/b/sub.lit" then Some (1, "\title{Questions}

\section{
  \title{Asked}
  \target{faq}
}
")
  else None.
Definition plain_env : env := Env (λ _, None) (λ _, None)
  (λ f name, match f with FBase => base_method name | FExt _ => None end) (λ _ _, false) false 10.
Lemma plain_env_base : base_only plain_env.
Proof. split; [done|]. by intros [|n] Hf. Qed.
Definition fine : world := World (λ _ n, seq 0 n) (λ _, None) (λ _, "") true (λ _, true) true.
Definition built (d : disk) (o : options) : files * outcome failure string := build (reading d plain_env) fine o 20 20 [].

(** Its site: three pages; the index was asked for. *)
Example book_built : ∃ a b c i, built book_disk (Options "/b/index.lit" "out" "" "" true "") =
    ([("book.html", a); ("intro.html", b); ("questions.html", c); ("search_index.json", i)], Ok "") ∧
  (∃ ts, tokens a = Some ts ∧ has_href ts "questions.html#faq" ∧ has_href ts "http://example.com" ∧
     has_href ts "questions.html#asked") ∧
  (∃ ts, tokens c = Some ts ∧ anchor "faq" ∈ ts ∧ anchor "asked" ∈ ts).
Proof.
  eexists _, _, _, _. split; [vm_compute; reflexivity|]. split.
  - eexists. split; [vm_compute; reflexivity|]. split_and!.
    + exists "a", [("href", "questions.html#faq")]. split; [left; vm_compute; among|by left].
    + exists "a", [("href", "http://example.com")]. split; [left; vm_compute; among|by left].
    + exists "a", [("href", "questions.html#asked")]. split; [left; vm_compute; among|by left].
  - eexists. split; [vm_compute; reflexivity|]. split; vm_compute; among.
Qed.

(** What is printed without a destination. *)
Example book_printed : built (λ p, if String.eqb p "/a.lit" then Some (1, "\title{Top}

\section{ \title{Low} }

Some
text.") else None) (Options "/a.lit" "" "low" "" false "txt") =
  ([], Ok ("Low" +:+ nls +:+ nls +:+ "1 Low  " +:+ nls +:+ nls +:+ nls +:+ nls)).
Proof. vm_compute. reflexivity. Qed.

Example book_unknown : built book_disk (Options "/b/index.lit" "out" "nothing" "" false "") = ([], Err (FUnknownTag "nothing")).
Proof. vm_compute. reflexivity. Qed.

(** *** Findings *)

(** A section that is not a page of its own can be printed, but building it to a
    directory succeeds without writing it. *)
Theorem build_tag_refuted : ∃ d, (∃ a, built d (Options "/a.lit" "" "low" "" false "") = ([], Ok a)) ∧
  built d (Options "/a.lit" "out" "low" "" false "") = ([], Ok "").
Proof.
  exists (λ p, if String.eqb p "/a.lit" then Some (1, "\title{Top}

\section{ \title{Low} }") else None).
  split; [eexists|]; vm_compute; reflexivity.
Qed.
Print Assumptions build_tag_refuted.

(** Likewise with --section-path, unless --in splits its sections. *)
Theorem build_path_refuted : ∃ d, (∃ a, built d (Options "/a.lit" "" "" "/b.lit" false "") = ([], Ok a)) ∧
  built d (Options "/a.lit" "out" "" "/b.lit" false "") = ([], Ok "").
Proof.
  exists (λ p, if String.eqb p "/a.lit" then Some (1, "\title{Top}")
               else if String.eqb p "/b.lit" then Some (1, "\title{Low}") else None).
  split; [eexists|]; vm_compute; reflexivity.
Qed.
Print Assumptions build_path_refuted.

(** The index is always that of the whole book: it points to pages that were not
    written when a part of it was built. *)
Theorem build_part_index_refuted : ∃ d idx ms m x, built d (Options "/a.lit" "out" "low" "" true "") =
    ([("low.html", x); ("search_index.json", idx)], Ok "") ∧
  json_read idx = Some (JObj ms) ∧ ("top", JObj m) ∈ ms ∧ ("location", JStr "top.html") ∈ m.
Proof.
  exists (λ p, if String.eqb p "/a.lit" then Some (1, "\title{Top}

\split-sections

\section{ \title{Low} }") else None).
  eexists _, _, _, _. split; [vm_compute; reflexivity|]. split; [vm_compute; reflexivity|].
  split; [right; left|left].
Qed.
Print Assumptions build_part_index_refuted.

(** The index replaces a page of the same name. *)
Theorem build_index_replaces_refuted : ∃ d x idx, built d (Options "/a.lit" "out" "" "" false "json") = ([("search_index.json", x)], Ok "") ∧
  built d (Options "/a.lit" "out" "" "" true "json") = ([("search_index.json", idx)], Ok "") ∧ x ≠ idx.
Proof.
  exists (λ p, if String.eqb p "/a.lit" then Some (1, "\title{Top}{search_index}") else None).
  eexists _, _. split; [vm_compute; reflexivity|]. split; [vm_compute; reflexivity|]. done.
Qed.
Print Assumptions build_index_replaces_refuted.
