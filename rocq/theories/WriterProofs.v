(** C18, C19, C20, C22: pages, files and the search index. *)
From Coq Require Import Ascii String Lia.
From stdpp Require Import base list strings relations tactics.
From Verif Require Import GoBase Ast Content Section Render StrProofs TreeSpec TreeProofs NavProofs RenderSpec.

(** ** Association lists *)
Lemma assoc_get_set {V} k k' (v : V) m :
  assoc_get k (assoc_set k' v m) = if String.eqb k' k then Some v else assoc_get k m.
Proof.
  induction m as [|[k0 v0] m IH]; simpl; [done|].
  destruct (String.eqb_spec k0 k') as [->|Hne]; simpl.
  - by destruct (String.eqb k' k).
  - rewrite IH. destruct (String.eqb_spec k0 k) as [->|]; [|done].
    by destruct (String.eqb_spec k' k) as [->|].
Qed.

Lemma page_b_spec h i : page_b h i = true ↔ is_page h i.
Proof.
  unfold page_b, is_page. split.
  - destruct (h !! i) as [s|] eqn:Hs; [|done]. intros H. exists s. split; [done|].
    destruct (s_parent s) as [p|]; [|done]. destruct (h !! p) as [ps|] eqn:Hp; [|done]. eauto.
  - intros (s & -> & H). destruct (s_parent s) as [p|]; [|done]. destruct H as (ps & -> & ->). done.
Qed.

Lemma pages_of_elem h r pages x : pages_of h r pages →
  x ∈ pages ↔ is_page h x ∧ descendant h r x.
Proof.
  intros (l & Hl & ->). rewrite elem_of_list_In, filter_In, <- elem_of_list_In.
  rewrite (listing_elem _ _ _ _ _ Hl), edge_all_descendant, page_b_spec. tauto.
Qed.

Lemma pages_of_nodup h r pages : wf h → pages_of h r pages → NoDup pages.
Proof.
  intros W (l & Hl & ->). apply listing_nodup in Hl; [|done].
  induction Hl; simpl; [constructor|]. destruct (page_b h x); [|done]. constructor; [|done].
  rewrite elem_of_list_In, filter_In, <- elem_of_list_In. tauto.
Qed.

Lemma pages_of_exists h r : wf h → valid h r → ∃ pages, pages_of h r pages.
Proof. intros W V. destruct (listing_exists h (λ _, true) r W V) as [l Hl]. eexists. by exists l. Qed.

(** ** C20 *)

Lemma write_pages_app h ok ext eng l1 l2 fs :
  write_pages h ok ext eng (l1 ++ l2) fs =
  match write_pages h ok ext eng l1 fs with
  | (fs', Some e) => (fs', Some e)
  | (fs', None) => write_pages h ok ext eng l2 fs'
  end.
Proof.
  revert fs. induction l1 as [|i l1 IH]; intros fs; simpl; [done|].
  destruct (ok _); [|done]. destruct (snd (eng i)); [done|]. apply IH.
Qed.

Definition ws_loop (rec : nat * files → option (files * option error)) :=
  fix loop (cs : list nat) (fs : files) : option (files * option error) :=
       match cs with
       | [] => Some (fs, None)
       | c :: r =>
         res ← rec (c, fs);
         match res with
         | (fs, Some e) => Some (fs, Some e)
         | (fs, None) => loop r fs
         end
       end.

Lemma write_section_pages h ok ext eng i l fs n : wf h → listing h (λ _, true) i l →
  length h - i < n →
  gofix (write_section_F h ok ext eng) n (i, fs) =
    Some (write_pages h ok ext eng (List.filter (page_b h) l) fs).
Proof.
  intros W H. revert n fs.
  refine (listing_mut h (λ _, true)
    (λ i l _, ∀ n fs, length h - i < n →
       gofix (write_section_F h ok ext eng) n (i, fs) =
       Some (write_pages h ok ext eng (List.filter (page_b h) l) fs))
    (λ cs l _, ∀ n fs, (∀ c, c ∈ cs → length h - c < n) →
       ws_loop (gofix (write_section_F h ok ext eng) n) cs fs =
       Some (write_pages h ok ext eng (List.filter (page_b h) l) fs)) _ _ _ i l H).
  - intros j s l0 Hs Hl IH n fs Hn. destruct n as [|n]; [lia|].
    change (gofix (write_section_F h ok ext eng) (S n) (j, fs))
      with (write_section_F h ok ext eng (gofix (write_section_F h ok ext eng) n) (j, fs)).
    assert (∀ fs, ws_loop (gofix (write_section_F h ok ext eng) n) (s_children s) fs =
       Some (write_pages h ok ext eng (List.filter (page_b h) l0) fs)) as IH'.
    { intros fs'. apply IH. intros c Hc. assert (child_of h j c) as Hch by (exists s; done).
      pose proof (wf_child_lt _ _ _ W Hch). pose proof (wf_child_valid _ _ _ W Hch).
      unfold valid in *. lia. }
    generalize dependent (gofix (write_section_F h ok ext eng) n). intros g IH'.
    unfold write_section_F. fold (ws_loop g). rewrite Hs. simpl.
    assert ((own ← match s_parent s with
        | None => Some true
        | Some p => ps ← h !! p; Some (s_split ps)
        end; Some own) = Some (page_b h j)) as Eown.
    { unfold page_b. rewrite Hs. destruct (s_parent s) as [p|] eqn:Hp; [|done].
      assert (parent_of h p j) as Hpj by (exists s; done).
      destruct (valid_lookup _ _ (parent_of_valid _ _ _ W Hpj)) as [ps ->]. done. }
    destruct (match s_parent s with
        | None => Some true
        | Some p => ps ← h !! p; Some (s_split ps)
        end) as [own|]; [|done]. simpl in Eown |- *. injection Eown as ->.
    destruct (page_b h j) eqn:Ej; simpl.
    + unfold write_single. fold (file_of h ext j).
      assert (page_file ext s = file_of h ext j) as -> by (unfold file_of; by rewrite Hs).
      destruct (ok _); [|done]. destruct (eng j) as [bytes [e|]]; simpl; [done|]. apply IH'.
    + apply IH'.
  - intros n fs _. done.
  - intros c cs l1 l2 H1 IH1 H2 IH2 n fs Hc. simpl.
    rewrite IH1 by (apply Hc; by left). simpl.
    rewrite List.filter_app, write_pages_app.
    destruct (write_pages h ok ext eng (List.filter (page_b h) l1) fs) as [fs' [e|]]; [done|].
    apply IH2. intros c' Hc'. apply Hc. by right.
Qed.

Lemma write_section_spec h ok ext eng r pages fs : wf h → pages_of h r pages →
  write_section h ok ext eng r fs = Some (write_pages h ok ext eng pages fs).
Proof.
  intros W (l & Hl & ->). unfold write_section. apply write_section_pages; try done.
  unfold fuel_of. lia.
Qed.

(** Files that are not pages' are untouched. *)
Lemma write_pages_frame h ok ext eng pages fs name :
  (∀ i, i ∈ pages → file_of h ext i ≠ name) →
  assoc_get name (fst (write_pages h ok ext eng pages fs)) = assoc_get name fs.
Proof.
  revert fs. induction pages as [|i r IH]; intros fs Hn; simpl; [done|].
  destruct (ok _); [|done].
  assert (assoc_get name (assoc_set (file_of h ext i) (fst (eng i)) fs) = assoc_get name fs) as E.
  { rewrite assoc_get_set. destruct (String.eqb_spec (file_of h ext i) name) as [E|]; [|done].
    exfalso. eapply Hn; [by left|done]. }
  destruct (snd (eng i)); [done|]. rewrite IH; [done|]. intros j Hj. apply Hn. by right.
Qed.

(** The last page of a given name wins. *)
Lemma write_pages_last h ok ext eng l1 i l2 fs fs' :
  write_pages h ok ext eng (l1 ++ i :: l2) fs = (fs', None) →
  (∀ j, j ∈ l2 → file_of h ext j ≠ file_of h ext i) →
  assoc_get (file_of h ext i) fs' = Some (fst (eng i)).
Proof.
  rewrite write_pages_app.
  destruct (write_pages h ok ext eng l1 fs) as [fs1 [e|]]; [done|]. simpl.
  destruct (ok _); [|done]. destruct (snd (eng i)); [done|]. intros E Hn.
  pose proof (write_pages_frame h ok ext eng l2
    (assoc_set (file_of h ext i) (fst (eng i)) fs1) _ Hn) as F.
  rewrite E in F. simpl in F. rewrite F, assoc_get_set. by rewrite String.eqb_refl.
Qed.

(** Without failure every page was rendered successfully. *)
Lemma write_pages_ok h ok ext eng pages fs fs' :
  write_pages h ok ext eng pages fs = (fs', None) →
  ∀ i, i ∈ pages → ok (file_of h ext i) = true ∧ snd (eng i) = None.
Proof.
  revert fs. induction pages as [|j r IH]; intros fs E i Hi; simpl in *; [set_solver|].
  destruct (ok (file_of h ext j)) eqn:Ho; [|done]. destruct (snd (eng j)) eqn:He; [done|].
  apply elem_of_cons in Hi as [->|Hi]; [done|]. by eapply IH.
Qed.

(** On failure, a page failed and everything before it succeeded. *)
Lemma write_pages_err h ok ext eng pages fs fs' e :
  write_pages h ok ext eng pages fs = (fs', Some e) →
  ∃ l1 i l2 fs1, pages = l1 ++ i :: l2 ∧ write_pages h ok ext eng l1 fs = (fs1, None) ∧
    ((ok (file_of h ext i) = false ∧ e = EStat (file_of h ext i) ∧ fs' = fs1) ∨
     (ok (file_of h ext i) = true ∧ snd (eng i) = Some e ∧
      fs' = assoc_set (file_of h ext i) (fst (eng i)) fs1)).
Proof.
  revert fs. induction pages as [|j r IH]; intros fs E; simpl in *; [done|].
  destruct (ok (file_of h ext j)) eqn:Ho.
  - destruct (snd (eng j)) as [e'|] eqn:He.
    + injection E as <- <-. exists [], j, r, fs. split_and!; try done. right. done.
    + destruct (IH _ E) as (l1 & i & l2 & fs1 & -> & E1 & Hr).
      exists (j :: l1), i, l2, fs1. split_and!; try done. simpl. by rewrite Ho, He.
  - injection E as <- <-. exists [], j, r, fs. split_and!; try done. left. done.
Qed.

(** ** C18 *)

Lemma owner_partition h r i : wf h → is_top h r → descendant h r i →
  ∃ o, is_page h o ∧ descendant h r o ∧ rtc (inlined h) o i ∧
    ∀ o', is_page h o' → rtc (inlined h) o' i → o' = o.
Proof.
  intros W Hr D. assert (valid h r) as Vr by (destruct Hr as (s & Hs & _); by eapply lookup_lt_Some).
  assert (valid h i) as V by by eapply descendant_valid.
  destruct (page_owner_exists _ _ W V) as (o & _ & Ho & R).
  exists o. split_and!; [done| | |].
  - edestruct ancestor_descendant; [done|done|done|by apply inline_parent_ancestor|done].
  - by eapply inline_parent_inlined.
  - intros o' Ho' R'. eapply page_owner_unique; [done|done|by apply inlines_inline_parent|done].
Qed.

(** ** C19 *)

Lemma no_dangling h r ext t i s : wf h → is_top h r → descendant h r i →
  h !! i = Some s → t ∈ s_tags s → t_section t = Some i →
  ∃ o frag, is_page h o ∧ descendant h r o ∧
    tag_url h ext t = Some (file_of h ext o +:+ frag)%string ∧
    (frag = "" ∨ ∃ a, frag = "#" +:+ a)%string.
Proof.
  intros W Hr D Hs Ht Hts.
  destruct (owner_partition _ _ _ W Hr D) as (o & Ho & Do & R & _).
  assert (valid h i) as V by by eapply lookup_lt_Some.
  destruct Ho as (os & Hos & Hpg).
  destruct (section_url_spec h ext i (t_anchor t) o os W V) as (s' & Hs' & E).
  { by exists os. } { by apply inlines_inline_parent. } { done. }
  unfold tag_url. rewrite Hts. simpl. rewrite E. cbv zeta.
  exists o. eexists. split; [by exists os|]. split; [done|].
  unfold file_of. rewrite Hos. split; [done|].
  match goal with |- context [if String.eqb ?a "" then ""%string else _] => destruct (String.eqb a "") end;
    [by left|right; eauto].
Qed.

(** ** C18: what each page contains *)

(** [section.tmpl] renders the children of a section in place unless it splits:
    a page shows the listing of its section along non-splitting edges. *)
Definition page_sections (h : heap) (o : nat) (l : list nat) : Prop :=
  listing h (λ s, negb (s_split s)) o l.

Lemma edge_inlined h a b : rtc (edge h (λ s, negb (s_split s))) a b ↔ rtc (inlined h) a b.
Proof.
  split; induction 1 as [|x y z (s & Hs & Hc & Hf) _ IH]; try constructor.
  - eapply rtc_l; [|exact IH]. exists s. split_and!; [done|done|]. by destruct (s_split s).
  - eapply rtc_l; [|exact IH]. exists s. split_and!; [done|done|]. by rewrite Hf.
Qed.

Lemma pages_cover h r l pages contents : wf h → is_top h r →
  listing h (λ _, true) r l → pages_of h r pages → Forall2 (page_sections h) pages contents →
  concat contents ≡ₚ l.
Proof.
  intros W T L P F.
  assert (valid h r) as Vr by (destruct T as (s & Hs & _); by eapply lookup_lt_Some).
  assert (∀ ps cs, Forall2 (page_sections h) ps cs → ∀ x,
            x ∈ concat cs ↔ ∃ o, o ∈ ps ∧ rtc (inlined h) o x) as Hin.
  { induction 1 as [|o c ps cs Hc _ IH]; intros x; simpl.
    - split; [intros H; inversion H|]. intros (o & Ho & _). inversion Ho.
    - rewrite elem_of_app, IH, (listing_elem _ _ _ _ _ Hc), edge_inlined. split.
      + intros [H|(o' & H & R)]; [exists o; split; [by left|done]|exists o'; split; [by right|done]].
      + intros (o' & H & R). apply elem_of_cons in H as [->|H]; [by left|right; eauto]. }
  apply stdpp.list.NoDup_Permutation; [|by eapply listing_nodup|].
  - assert (∀ ps cs, Forall2 (page_sections h) ps cs → NoDup ps → (∀ o, o ∈ ps → is_page h o) →
      NoDup (concat cs)) as Hnd.
    { induction 1 as [|o c ps cs Hc Hf IH]; intros N Hp; simpl; [constructor|].
      apply stdpp.list.NoDup_cons in N as [No N]. apply stdpp.list.NoDup_app. split_and!.
      - by eapply listing_nodup.
      - intros x Hx Hx'. rewrite (listing_elem _ _ _ _ _ Hc), edge_inlined in Hx.
        rewrite (Hin _ _ Hf) in Hx'. destruct Hx' as (o' & Ho' & R').
        assert (o = o') as ->; [|done].
        eapply page_owner_unique.
        + apply Hp. by left.
        + apply Hp. by right.
        + by apply inlines_inline_parent.
        + by apply inlines_inline_parent.
      - apply IH; [done|]. intros ? ?. apply Hp. by right. }
    eapply Hnd; [done|by eapply pages_of_nodup|]. intros o Ho.
    eapply (pages_of_elem _ _ _ _ P) in Ho. tauto.
  - intros x. rewrite (Hin _ _ F), (listing_elem _ _ _ _ _ L), edge_all_descendant. split.
    + intros (o & Ho & R). eapply (pages_of_elem _ _ _ _ P) in Ho as [_ D].
      etrans; [exact D|]. apply edge_inlined, edges_descendant in R. done.
    + intros D. destruct (owner_partition _ _ _ W T D) as (o & Hp & Do & R & _).
      exists o. split; [|done]. by eapply (pages_of_elem _ _ _ _ P).
Qed.

(** ** C22 *)

Lemma index_tags_app str h ext l1 l2 idx :
  index_tags str h ext (l1 ++ l2) idx =
  obind (index_tags str h ext l2) (index_tags str h ext l1 idx).
Proof.
  revert idx. induction l1 as [|t l1 IH]; intros idx; simpl; [done|].
  destruct (tag_doc str h ext t); simpl; try done.
Qed.

Definition own_tags (h : heap) (i : nat) : list tag :=
  match h !! i with Some s => s_tags s | None => [] end.

Definition lt_loop (rec : nat → list (string * search_doc) → outcome error (list (string * search_doc))) :=
  fix loop (cs : list nat) idx :=
        match cs with
        | [] => Ok idx
        | c :: r => obind (loop r) (rec c idx)
        end.

Lemma load_tags_spec str h ext i l idx n : wf h → listing h (λ _, true) i l → length h - i < n →
  load_tags n str h ext i idx = index_tags str h ext (flat_map (own_tags h) l) idx.
Proof.
  intros W H. revert n idx.
  refine (listing_mut h (λ _, true)
    (λ i l _, ∀ n idx, length h - i < n →
       load_tags n str h ext i idx = index_tags str h ext (flat_map (own_tags h) l) idx)
    (λ cs l _, ∀ n idx, (∀ c, c ∈ cs → length h - c < n) →
       lt_loop (load_tags n str h ext) cs idx = index_tags str h ext (flat_map (own_tags h) l) idx)
    _ _ _ i l H).
  - intros j s l0 Hs Hl IH n idx Hn. destruct n as [|n]; [lia|].
    assert (own_tags h j = s_tags s) as Eo by (unfold own_tags; by rewrite Hs).
    cbn [load_tags flat_map]. rewrite Hs, Eo, index_tags_app.
    destruct (index_tags str h ext (s_tags s) idx) as [idx'|e| |]; simpl; try done.
    fold (lt_loop (load_tags n str h ext)). apply IH.
    intros c Hc. assert (child_of h j c) as Hch by (exists s; done).
    pose proof (wf_child_lt _ _ _ W Hch). pose proof (wf_child_valid _ _ _ W Hch).
    unfold valid in *. lia.
  - done.
  - intros c cs l1 l2 H1 IH1 H2 IH2 n idx Hc. simpl.
    rewrite IH1 by (apply Hc; by left). rewrite flat_map_app, index_tags_app.
    destruct (index_tags str h ext (flat_map (own_tags h) l1) idx); simpl; try done.
    apply IH2. intros ? ?. apply Hc. by right.
Qed.

(** The last tag named [name]. *)
Definition last_named (name : string) (ts : list tag) (t : tag) : Prop :=
  t_name t = name ∧ ∃ l1 l2, ts = l1 ++ t :: l2 ∧ ∀ t', t' ∈ l2 → t_name t' ≠ name.

Lemma index_tags_get str h ext ts idx idx' name : index_tags str h ext ts idx = Ok idx' →
  (∃ t d, last_named name ts t ∧ tag_doc str h ext t = Ok d ∧ assoc_get name idx' = Some d) ∨
  ((∀ t, t ∈ ts → t_name t ≠ name) ∧ assoc_get name idx' = assoc_get name idx).
Proof.
  revert idx. induction ts as [|t ts IH]; intros idx E; simpl in E.
  - injection E as ->. right. split; [|done]. intros t Ht. inversion Ht.
  - destruct (tag_doc str h ext t) as [d|e| |] eqn:Ed; simpl in E; try done.
    destruct (IH _ E) as [(t' & d' & (Hn & l1 & l2 & -> & Hl) & Hd & Hg)|[Hn Hg]].
    + left. exists t', d'. split; [|done]. split; [done|]. exists (t :: l1), l2. done.
    + rewrite assoc_get_set in Hg. destruct (String.eqb_spec (t_name t) name) as [En|Hne].
      * left. exists t, d. split; [|done]. split; [done|]. exists [], ts. done.
      * right. split; [|done]. intros t' Ht'. apply elem_of_cons in Ht' as [->|Ht']; [done|by apply Hn].
Qed.

Lemma index_tags_ok str h ext ts idx :
  (∃ idx', index_tags str h ext ts idx = Ok idx') ↔ ∀ t, t ∈ ts → ∃ d, tag_doc str h ext t = Ok d.
Proof.
  revert idx. induction ts as [|t ts IH]; intros idx; simpl.
  - split; [|eauto]. intros _ t Ht. inversion Ht.
  - destruct (tag_doc str h ext t) as [d|e| |] eqn:Ed; simpl.
    2-4: split; [by intros [? ?]|]; intros H; destruct (H t) as [d Hd]; [by left|congruence].
    rewrite IH. split.
    + intros H t' Ht'. apply elem_of_cons in Ht' as [->|Ht']; eauto.
    + intros H t' Ht'. apply H. by right.
Qed.

Lemma index_tags_nodup str h ext ts idx idx' : index_tags str h ext ts idx = Ok idx' →
  NoDup (map fst idx) → NoDup (map fst idx').
Proof.
  assert (∀ {V} k (v : V) m x, x ∈ map fst (assoc_set k v m) → x = k ∨ x ∈ map fst m) as Hk.
  { induction m as [|[k0 v0] m IH]; simpl; intros x Hx.
    - apply elem_of_list_singleton in Hx. by left.
    - destruct (String.eqb_spec k0 k) as [->|]; simpl in Hx.
      + apply elem_of_cons in Hx as [->|Hx]; [by left|]. right. by right.
      + apply elem_of_cons in Hx as [->|Hx]; [right; by left|].
        destruct (IH _ Hx) as [->|]; [by left|]. right. by right. }
  assert (∀ {V} k (v : V) m, NoDup (map fst m) → NoDup (map fst (assoc_set k v m))) as Hs.
  { induction m as [|[k0 v0] m IH]; simpl; intros N.
    - repeat constructor. intros H; inversion H.
    - apply stdpp.list.NoDup_cons in N as [N1 N2]. destruct (String.eqb_spec k0 k) as [->|Hne]; simpl.
      + by constructor.
      + constructor; [|by apply IH]. intros Hx. apply Hk in Hx as [->|]; done. }
  revert idx. induction ts as [|t ts IH]; intros idx E N; simpl in E; [by injection E as ->|].
  destruct (tag_doc str h ext t) as [d|e| |] eqn:Ed; simpl in E; try done.
  eapply IH; [done|]. by apply Hs.
Qed.

Lemma tag_doc_spec str h ext t d : tag_doc str h ext t = Ok d ↔
  ∃ x sec ti, t_section t = Some x ∧ h !! x = Some sec ∧ t_title t = Some ti ∧
    tag_url h ext t = Some (sd_location d) ∧
    str ti = Ok (sd_title d) ∧
    str (match t_content t with Some c => c | None => s_body sec end) = Ok (sd_text d) ∧
    depth h x = Some (sd_depth d) ∧
    sd_section_tag d = t_name (s_primary sec).
Proof.
  unfold tag_doc. split.
  - destruct (t_section t) as [x|] eqn:Hx; [|done]. destruct (h !! x) as [sec|] eqn:Hs; [|done].
    destruct (str (match t_content t with Some c => c | None => s_body sec end)) as [text| | |] eqn:Et; simpl; try done.
    destruct (tag_url h ext t) as [url|]; [|done]. destruct (t_title t) as [ti|]; [|done].
    destruct (depth h x) as [dp|] eqn:Ed; [|done]. destruct (str ti) as [tt| | |] eqn:Eti; simpl; try done.
    intros [= <-]. exists x, sec, ti. simpl. done.
  - intros (x & sec & ti & -> & -> & Hti & -> & Eti & -> & -> & Etag). simpl. rewrite Hti, Eti. simpl.
    destruct d. simpl in *. by subst.
Qed.

(** ** Corollaries in the shape of the property statements *)

Lemma page_owner_inlined h r o i : wf h → is_top h r → descendant h r i → is_page h o →
  page_owner h i = Some o ↔ rtc (inlined h) o i.
Proof.
  intros W T D Ho.
  assert (valid h r) as Vr by (destruct T as (s & Hs & _); by eapply lookup_lt_Some).
  assert (valid h i) as V by by eapply descendant_valid.
  rewrite (page_owner_spec _ _ _ W V). split.
  - intros [_ R]. by eapply inline_parent_inlined.
  - intros R. split; [done|]. by apply inlines_inline_parent.
Qed.

Lemma list_last_named (P : nat → Prop) `{∀ x, Decision (P x)} (l : list nat) : Exists P l →
  ∃ l1 y l2, l = l1 ++ y :: l2 ∧ P y ∧ ∀ z, z ∈ l2 → ¬ P z.
Proof.
  induction l as [|c l IH]; intros He; [inversion He|].
  destruct (decide (Exists P l)) as [Hl|Hne].
  - destruct (IH Hl) as (l1 & z & l2 & -> & ? & ?). exists (c :: l1), z, l2. done.
  - inversion He as [? ? Hc|? ? ?]; subst; [|done]. exists [], c, l. split_and!; [done|done|].
    intros z Hz HPz. apply Hne. apply stdpp.list.Exists_exists. exists z. done.
Qed.

Lemma links_are_written h r ok ext eng fs fs' t i s : wf h → is_top h r → descendant h r i →
  h !! i = Some s → t ∈ s_tags s → t_section t = Some i →
  write_section h ok ext eng r fs = Some (fs', None) →
  ∃ page frag bytes, tag_url h ext t = Some (page +:+ frag)%string ∧
    (frag = "" ∨ ∃ a, frag = "#" +:+ a)%string ∧
    assoc_get page fs' = Some bytes ∧
    ∃ o, is_page h o ∧ descendant h r o ∧ bytes = fst (eng o) ∧ file_of h ext o = page.
Proof.
  intros W T D Hs Ht Hts E.
  destruct (no_dangling h r ext t i s W T D Hs Ht Hts) as (o & frag & Ho & Do & Eu & Hf).
  assert (valid h r) as Vr by (destruct T as (s' & Hs' & _); by eapply lookup_lt_Some).
  destruct (pages_of_exists h r W Vr) as [pages P].
  rewrite (write_section_spec _ _ _ _ _ _ _ W P) in E. injection E as E.
  assert (o ∈ pages) as Hop by (by eapply pages_of_elem).
  destruct (list_last_named (λ j, file_of h ext j = file_of h ext o) pages)
    as (l1 & o' & l2 & -> & Ho' & Hl2); [apply stdpp.list.Exists_exists; eauto|].
  exists (file_of h ext o), frag, (fst (eng o')). split_and!; [done|done| |].
  - rewrite <- Ho'. eapply write_pages_last; [done|]. intros j Hj. rewrite Ho'. by apply Hl2.
  - exists o'. eapply (pages_of_elem _ _ _ o') in P. destruct P as [P _].
    destruct P as [? ?]; [rewrite elem_of_app, elem_of_cons; tauto|]. done.
Qed.

Lemma write_section_ok h ok ext eng r pages fs fs' : wf h → pages_of h r pages →
  write_section h ok ext eng r fs = Some (fs', None) →
  (∀ i, i ∈ pages → snd (eng i) = None) ∧
  (∀ i, i ∈ pages → (∀ j, j ∈ pages → file_of h ext j = file_of h ext i → j = i) →
        assoc_get (file_of h ext i) fs' = Some (fst (eng i))) ∧
  (∀ name, (∀ i, i ∈ pages → file_of h ext i ≠ name) → assoc_get name fs' = assoc_get name fs).
Proof.
  intros W P E. pose proof (pages_of_nodup _ _ _ W P) as N.
  rewrite (write_section_spec _ _ _ _ _ _ _ W P) in E. injection E as E. split_and!.
  - intros i Hi. by eapply write_pages_ok.
  - intros i Hi Hu. apply elem_of_list_split in Hi as (l1 & l2 & ->).
    eapply write_pages_last; [done|]. intros j Hj Ej.
    assert (j = i) as -> by (apply Hu; [rewrite elem_of_app, elem_of_cons; tauto|done]).
    apply stdpp.list.NoDup_app in N as (_ & _ & N). by apply stdpp.list.NoDup_cons in N as [? _].
  - intros name Hn. pose proof (write_pages_frame h ok ext eng pages fs name Hn) as F.
    by rewrite E in F.
Qed.

Lemma write_section_err h ok ext eng r pages fs fs' e : wf h → pages_of h r pages →
  write_section h ok ext eng r fs = Some (fs', Some e) →
  ∃ l1 i l2, pages = l1 ++ i :: l2 ∧
    (∀ j, j ∈ l1 → snd (eng j) = None) ∧
    (e = EStat (file_of h ext i) ∨ snd (eng i) = Some e) ∧
    (∀ name, (∀ j, j ∈ l1 ++ [i] → file_of h ext j ≠ name) → assoc_get name fs' = assoc_get name fs).
Proof.
  intros W P E. rewrite (write_section_spec _ _ _ _ _ _ _ W P) in E. injection E as E.
  destruct (write_pages_err _ _ _ _ _ _ _ _ E) as (l1 & i & l2 & fs1 & -> & E1 & Hr).
  exists l1, i, l2. split_and!; [done| | |].
  - intros j Hj. by eapply write_pages_ok.
  - destruct Hr as [(_ & -> & _)|(_ & He & _)]; auto.
  - intros name Hn. pose proof (write_pages_frame h ok ext eng l1 fs name) as F.
    rewrite E1 in F. simpl in F. rewrite <- F by (intros j Hj; apply Hn; set_solver).
    destruct Hr as [(_ & _ & ->)|(_ & _ & ->)]; [done|].
    rewrite assoc_get_set. destruct (String.eqb_spec (file_of h ext i) name) as [En|]; [|done].
    exfalso. eapply Hn; [|exact En]. set_solver.
Qed.

Lemma search_index_spec str h ext r l idx name : wf h → listing h (λ _, true) r l →
  search_index str h ext r = Ok idx →
  NoDup (map fst idx) ∧
  ((∃ t d, last_named name (flat_map (own_tags h) l) t ∧ tag_doc str h ext t = Ok d ∧
           assoc_get name idx = Some d) ∨
   ((∀ t, t ∈ flat_map (own_tags h) l → t_name t ≠ name) ∧ assoc_get name idx = None)).
Proof.
  intros W L E. unfold search_index in E.
  rewrite (load_tags_spec _ _ _ _ _ _ _ W L) in E by (unfold fuel_of; lia). split.
  - eapply index_tags_nodup; [done|]. constructor.
  - by apply (index_tags_get _ _ _ _ _ _ name) in E.
Qed.

Lemma search_index_ok str h ext r l : wf h → listing h (λ _, true) r l →
  (∃ idx, search_index str h ext r = Ok idx) ↔
  ∀ t, t ∈ flat_map (own_tags h) l → ∃ d, tag_doc str h ext t = Ok d.
Proof.
  intros W L. unfold search_index.
  rewrite (load_tags_spec _ _ _ _ _ _ _ W L) by (unfold fuel_of; lia). apply index_tags_ok.
Qed.
