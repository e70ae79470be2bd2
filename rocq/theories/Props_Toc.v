(** C42: tables of contents. *)
From Coq Require Import Ascii String Lia.
From stdpp Require Import base tactics relations strings list.
From Verif Require Import GoBase StrProofs Ast Content Section TreeSpec TreeProofs QueryProofs NavProofs RenderSpec Render Demo
  Evaluate Collect DemoDoc Html HtmlSpec HtmlProofs HtmlRender HtmlText Woven HtmlToc TextRender TextProofs HtmlPages RenderFuel
  HtmlLoad Props_Html.
Local Open Scope string_scope.
Local Open Scope list_scope.

(** ** C42 *)

(** The sections that the table of contents of [i] is to list: those reached by going
    to children, but not from sections that omit theirs. *)
Definition listed (h : heap) (i x : nat) : Prop := x ≠ i ∧ rtc (edge h (λ s, negb (s_omit s))) i x.

Lemma listed_spec h i l : wf h → listing h (λ s, negb (s_omit s)) i (i :: l) → NoDup l ∧ ∀ x, x ∈ l ↔ listed h i x.
Proof.
  intros W H. pose proof (listing_nodup _ _ _ _ W H) as N. inversion N; subst. split; [done|]. intros x.
  unfold listed. rewrite <- (listing_elem _ _ _ _ x H), elem_of_cons. split; [|tauto]. intros Hx. split; [by intros ->|tauto].
Qed.

(** The HTML table consists of one entry for each of them, in depth-first order,
    between markup that shows nothing. *)
Theorem toc_lists : ∀ similar broken h force str i, wf h → valid h i → ∃ l,
  listing h (λ s, negb (s_omit s)) i (i :: l) ∧ NoDup l ∧ (∀ x, x ∈ l ↔ listed h i x) ∧
  ∀ n out, html similar broken h force str n (CToc i) = Ok out →
    ∃ es, Forall2 (entry similar broken h force str) l es ∧ woven scaffold es out.
Proof.
  intros similar broken h force str i W V. destruct (listing_exists h (λ s, negb (s_omit s)) i W V) as (l & H).
  destruct (toc_woven similar broken h force str i l H) as (l' & -> & HT). exists l'.
  destruct (listed_spec _ _ _ W H) as [N E]. split; [done|]. split; [done|]. split; [done|]. exact HT.
Qed.
Print Assumptions toc_lists.

(** The text table: likewise, between white space. *)
Theorem toc_text_lists : ∀ h force str i, wf h → valid h i → ∃ l,
  listing h (λ s, negb (s_omit s)) i (i :: l) ∧ NoDup l ∧ (∀ x, x ∈ l ↔ listed h i x) ∧
  ∀ n out, text h force str n (CToc i) = Ok out →
    ∃ es, Forall2 (text_entry h force str) l es ∧ woven blank es out.
Proof.
  intros h force str i W V. destruct (listing_exists h (λ s, negb (s_omit s)) i W V) as (l & H).
  inversion H as [? s l' Hi Hl]; subst. exists l'. destruct (listed_spec _ _ _ W H) as [N E].
  split; [done|]. split; [done|]. split; [done|]. intros n out Ho.
  destruct (toc_text_woven _ _ _ _ _ _ _ H Ho) as (l2 & es & Q & F & Wv). injection Q as <-. eauto.
Qed.
Print Assumptions toc_text_lists.

(** It is rendered if each of the entries can be. *)
Lemma omapM_more {A B} (f f' : A → outcome rerr B) l r : (∀ x, below (f x) (f' x)) → omapM f l = Ok r → omapM f' l = Ok r.
Proof. intros H E. destruct (below_omapM f f' l (all_below _ _ _ H)) as [E'|E']; congruence. Qed.

Theorem toc_rendered : ∀ similar broken h force str i l, listing h (λ s, negb (s_omit s)) i (i :: l) →
  (∀ x, x ∈ l → ∃ e, entry similar broken h force str x e) →
  ∃ n out, ∀ m, n ≤ m → html similar broken h force str m (CToc i) = Ok out.
Proof.
  intros similar broken h force str i l0 H Hl0.
  cut (∃ n out, html similar broken h force str n (CToc i) = Ok out).
  { intros (n & out & E). exists n, out. intros m L. by eapply html_more. }
  remember (i :: l0) as l eqn:Q.
  assert (∀ x, x ∈ l → x ≠ i ∨ x ∈ l0 → ∃ e, entry similar broken h force str x e) as Hl.
  { subst l. intros x [-> |Hx]%elem_of_cons; [intros [?|?]; [done|by apply Hl0]|intros _; by apply Hl0]. }
  assert (∀ x, x ∈ tail l → ∃ e, entry similar broken h force str x e) as Ht by by subst l.
  clear Hl Hl0 Q l0. revert Ht.
  refine (listing_mut h (λ s, negb (s_omit s))
    (λ i l _, (∀ x, x ∈ tail l → ∃ e, entry similar broken h force str x e) → ∃ n out, html similar broken h force str n (CToc i) = Ok out)
    (λ cs l _, (∀ x, x ∈ l → ∃ e, entry similar broken h force str x e) →
       ∃ n es, omapM (toc_entry h (html similar broken h force str n)) cs = Ok es) _ _ _ i l H); clear i l H.
  - intros i s l Hi _ IH Hl. cbn [tail] in Hl. destruct (IH Hl) as (n & es & E). exists (S n). cbn [html html_F].
    rewrite (toc_step _ _ _ _ Hi). destruct (s_children s) as [|c cs]; [by exists ""|].
    destruct (s_omit s); [by exists ""|]. cbn [negb] in E. rewrite E. by eexists.
  - intros _. by exists 0, [].
  - intros c cs l1 l2 Hc IH1 Hcs IH2 Hl.
    inversion Hc as [? s l1' Hs _]; subst.
    destruct IH1 as (n1 & sub & E1). { intros x Hx. apply Hl, elem_of_app. left. by right. }
    destruct IH2 as (n2 & es & E2). { intros x Hx. apply Hl, elem_of_app. by right. }
    destruct (Hl c) as (e & s' & u & nu & t & m & sh & Hs' & Hu & Hn & Ht & Hm & _). { by left. }
    exists (n1 + n2 + m), ((u, nu, sh, sub) :: es).
    change (omapM ?f (c :: cs)) with (obind (λ y, obind (λ ys, Ok (y :: ys)) (omapM f cs)) (f c)).
    assert (∀ x, below (toc_entry h (html similar broken h force str n2) x) (toc_entry h (html similar broken h force str (n1 + n2 + m)) x)) as HB.
    { intros x. unfold toc_entry. bl; apply html_below; lia. }
    rewrite (omapM_more _ _ _ _ HB E2).
    unfold toc_entry. rewrite Hs', Hu, Hn, Ht.
    rewrite (html_more _ _ _ _ _ m (n1 + n2 + m) t (Ok sh)) by (done || lia). cbn [obind].
    rewrite (html_more _ _ _ _ _ n1 (n1 + n2 + m) (CToc c) (Ok sub)) by (done || lia). done.
Qed.
Print Assumptions toc_rendered.

(** The tree of Demo, where section 1 now omits its children, and the title of 4 has
    an auxiliary part. *)
Definition omitting : heap :=
  match demo with
  | s0 :: s1 :: s2 :: s3 :: s4 :: r =>
    s0 :: Section (s_path s1) (s_title s1) (s_body s1) (s_titleloc s1) (s_primary s1) (s_tags s1) (s_parent s1) (s_children s1)
            (s_style s1) (s_partials s1) (s_split s1) (s_prevent s1) (s_reset s1) true (s_factories s1) (s_loc s1) (s_invloc s1)
    :: s2 :: s3 ::
    Section (s_path s4) (CSeq [CString "R & D"; CAux (CString " (new)")]) (s_body s4) (s_titleloc s4) (s_primary s4) (s_tags s4)
            (s_parent s4) (s_children s4) (s_style s4) (s_partials s4) (s_split s4) (s_prevent s4) (s_reset s4) false
            (s_factories s4) (s_loc s4) (s_invloc s4) :: r
  | _ => []
  end.

Definition hrefs (ts : list token) : list string := omap (λ t, match t with TOpen "a" [("href", u)] => Some u | _ => None end) ts.

Ltac list_section := eapply listing_node; [reflexivity|cbn -[app]].
Ltac list_sections := first [apply listings_nil | eapply (listings_cons _ _ _ _ [_; _; _]); [list_section; list_sections|list_sections]
  | eapply (listings_cons _ _ _ _ [_; _]); [list_section; list_sections|list_sections]
  | eapply (listings_cons _ _ _ _ [_]); [list_section; list_sections|list_sections]].

Example omitting_toc : wf omitting ∧ valid omitting 0 ∧ listing omitting (λ s, negb (s_omit s)) 0 [0; 1; 4; 5] ∧
  (∃ out ts, html (λ _ _, false) false omitting (λ _, None) (λ _, Ok "") 5 (CToc 0) = Ok out ∧ tokens out = Some ts ∧
     hrefs ts = ["intro.html"; "ref.html"; "api.html"] ∧
     ink (chars ts) = ink "1 intro 2 R & D 2.1 api") ∧
  ∃ out, text omitting (λ _, None) (λ _, Ok "") 5 (CToc 0) = Ok out ∧ ink out = ink "1 intro 2 R & D 2.1 api".
Proof.
  split; [apply wfb_wf; reflexivity|]. split; [unfold valid; simpl; lia|]. split; [list_section; list_sections|]. split.
  - eexists _, _. split; [vm_compute; reflexivity|]. split; [vm_compute; reflexivity|]. split; vm_compute; reflexivity.
  - eexists. split; [vm_compute; reflexivity|]. vm_compute. reflexivity.
Qed.

(** A section without a title has no URL: a table of contents listing it is not
    rendered to HTML, though it is to text. *)
Theorem untitled_toc_refuted : ∃ nd h, snd (loaded_file nd) = Ok 0 ∧ st_heap (fst (loaded_file nd)) = h ∧ wf h ∧
  listing h (λ s, negb (s_omit s)) 0 [0; 1] ∧
  (∀ similar broken force str n, html similar broken h force str (S n) (CToc 0) = Err RNil) ∧
  (∀ force str n, ∃ out, text h force str (S n) (CToc 0) = Ok out).
Proof.
  exists (NSeq [para [call 1 "title" [txt "Top"]]; para [call 2 "section" [para [txt "no title"]]]]).
  eexists. split; [vm_compute; reflexivity|]. split; [vm_compute; reflexivity|]. split; [apply wfb_wf; vm_compute; reflexivity|].
  split; [list_section; list_sections|]. split.
  - intros. reflexivity.
  - intros. eexists. destruct n; reflexivity.
Qed.
Print Assumptions untitled_toc_refuted.
