(** What the bundled text templates write. *)
From Coq Require Import Ascii String Lia.
From stdpp Require Import base tactics relations strings list.
From Verif Require Import GoBase StrProofs Ast Content ContentProofs Section TreeSpec TreeProofs QueryProofs NavProofs Render
  Html HtmlText Woven TextRender.
Local Open Scope string_scope.
Local Open Scope list_scope.

(** ** Specification *)

Definition newline : ascii := "010".

(** The text of contents that are shown in place. *)
Inductive prints : content → string → Prop :=
| prints_string s : prints (CString s) s
| prints_seq l ss : Forall2 prints l ss → prints (CSeq l) (String.concat "" ss)
| prints_para l ss : Forall2 prints l ss → prints (CPara l) (String.concat " " ss +:+ String newline (String newline ""))
| prints_pre l ss : Forall2 prints l ss → prints (CPre l) (String.concat (String newline "") ss)
| prints_inset b x ps s : prints x s →
    prints (CStyled "inset" b x ps) (String.concat (String newline "") (map (λ line, "    " +:+ line) (ssplit newline s)))
| prints_aux x s : prints x s → prints (CAux x) s.

(** Contents made of these. *)
Inductive plain : content → Prop :=
| plain_string s : plain (CString s)
| plain_seq l : Forall plain l → plain (CSeq l)
| plain_para l : Forall plain l → plain (CPara l)
| plain_pre l : Forall plain l → plain (CPre l)
| plain_inset b x ps : plain x → plain (CStyled "inset" b x ps)
| plain_aux x : plain x → plain (CAux x).

(** Contents that show something for which there is no template. The styles that
    have one are those in [styles]. *)
Definition text_styles : list string := ["inset"; "string"].
Inductive unsupported : content → Prop :=
| un_ref sec t rc o l : unsupported (CRef sec t rc o l)
| un_link x t : unsupported (CLink x t)
| un_target t l ti x : unsupported (CTarget t l ti x)
| un_image p d : unsupported (CImage p d)
| un_list l o : unsupported (CList l o)
| un_table rows : unsupported (CTable rows)
| un_defs ds : unsupported (CDefs ds)
| un_styled st b x ps : st ∉ text_styles → unsupported (CStyled st b x ps)
| un_seq l x : x ∈ l → unsupported x → unsupported (CSeq l)
| un_para l x : x ∈ l → unsupported x → unsupported (CPara l)
| un_pre l x : x ∈ l → unsupported x → unsupported (CPre l)
| un_inset b x ps : unsupported x → unsupported (CStyled "inset" b x ps)
| un_aux x : unsupported x → unsupported (CAux x).

(** White space. *)
Fixpoint blank (s : string) : Prop := match s with "" => True | String c s => space c = true ∧ blank s end.

Definition plain_style (s : section) : Prop := s_style s = "" ∨ s_style s = "section".

Section spec.
  Context (h : heap) (force : nat → option content) (str : content → outcome error string).

  (** The entry of section [c] in a table of contents: its number, one space, and
      its title without what is auxiliary. *)
  Definition text_entry (c : nat) (e : string) : Prop :=
    ∃ s nu t m shown, h !! c = Some s ∧ number h c = Some nu ∧ strip_aux (s_title s) = Some t ∧
      text h force str m t = Ok shown ∧ e = nu +:+ " " +:+ shown.

  (** Section [c] without its children: number (if it has a parent), title, and body
      immediately after it. *)
  Definition text_section (c : nat) (e : string) : Prop :=
    ∃ s head m title body, h !! c = Some s ∧
      (s_parent s = None ∧ head = "" ∨ ∃ p nu, s_parent s = Some p ∧ number h c = Some nu ∧ head = nu +:+ " ") ∧
      text h force str m (s_title s) = Ok title ∧ text h force str m (s_body s) = Ok body ∧ e = head +:+ title +:+ body.
End spec.

(** ** Proof *)

Lemma concat_sjoin sep l : String.concat sep l = sjoin sep l.
Proof. induction l as [|x [|y l] IH]; [done..|]. rewrite sjoin_cons. change (String.concat sep (x :: y :: l)) with (x +:+ sep +:+ String.concat sep (y :: l)). by rewrite <- IH. Qed.
Lemma concat_sconcat l : String.concat "" l = sconcat l.
Proof.
  induction l as [|x [|y l] IH]; [done|simpl; by rewrite sapp_nil_r|].
  change (String.concat "" (x :: y :: l)) with (x +:+ "" +:+ String.concat "" (y :: l)).
  change (sconcat (x :: y :: l)) with (x +:+ sconcat (y :: l)). by rewrite <- IH.
Qed.
Lemma inset_lines s : String.concat (String newline "") (map (λ line, "    " +:+ line) (ssplit newline s)) = "    " +:+ join_lines "    " s.
Proof.
  rewrite concat_sjoin. induction s as [|c s IH]; [done|]. cbn [ssplit join_lines].
  change (Ascii.eqb c "010") with (Ascii.eqb c newline). destruct (Ascii.eqb_spec c newline) as [->|N].
  - destruct (ssplit newline s) as [|l ls] eqn:E; [by destruct s; simpl in E; [|destruct (Ascii.eqb _ _); [|destruct (ssplit _ _)]]|].
    cbn [map]. rewrite sjoin_cons. cbn [map] in IH. rewrite IH. done.
  - destruct (ssplit newline s) as [|l ls] eqn:E; [by destruct s; simpl in E; [|destruct (Ascii.eqb _ _); [|destruct (ssplit _ _)]]|].
    cbn [map] in *. destruct ls as [|l2 ls].
    + cbn [map sjoin] in *. change ("    " +:+ String c l) with (("    " +:+ String c "") +:+ l).
      apply (inj (String.append "    ")) in IH. by rewrite IH.
    + cbn [map] in *. rewrite sjoin_cons in IH |- *.
      rewrite sapp_assoc in IH. apply (inj (String.append "    ")) in IH. rewrite <- IH. done.
Qed.

Lemma omapM_Forall2 {A B} (f : A → outcome rerr B) l ss : omapM f l = Ok ss ↔ Forall2 (λ c s, f c = Ok s) l ss.
Proof.
  split.
  - revert ss. induction l as [|c l IH]; intros ss; [intros [= <-]; constructor|].
    change (omapM f (c :: l)) with (obind (λ y, obind (λ ys, Ok (y :: ys)) (omapM f l)) (f c)).
    destruct (f c) as [y| | |] eqn:E; try done. cbn [obind]. destruct (omapM f l) as [ys| | |]; try done. intros [= <-].
    constructor; [done|by apply IH].
  - induction 1 as [|c s l ss Hc _ IH]; [done|].
    change (omapM f (c :: l)) with (obind (λ y, obind (λ ys, Ok (y :: ys)) (omapM f l)) (f c)).
    rewrite Hc, IH. done.
Qed.
Lemma prints_mono {A B} (P Q : A → B → Prop) l ss : Forall (λ c, ∀ s, P c s ↔ Q c s) l → Forall2 P l ss ↔ Forall2 Q l ss.
Proof.
  intros H. split; revert ss; induction H as [|c l Hc _ IH]; intros ss F; inversion F; subst; constructor; try (by apply Hc); by apply IH.
Qed.

Lemma sblank a b : blank (a +:+ b) ↔ blank a ∧ blank b.
Proof. induction a as [|c a IH]; simpl; [tauto|]. rewrite IH. tauto. Qed.
Lemma blank_app a b : blank a → blank b → blank (a +:+ b).
Proof. by rewrite sblank. Qed.

Section text.
  Context (h : heap) (force : nat → option content) (str : content → outcome error string).
  Notation tF := (text_F h force str).
  Notation tx := (text h force str).

  Lemma text_unfold n : ∃ jump, tx n = tF jump ∧ ((∀ c, jump c = NoFuel) ∨ ∃ m, n = S m ∧ jump = tx m).
  Proof. destruct n as [|n]; eauto 10. Qed.

  Lemma text_F_plain jump c : plain c → ∀ s, tF jump c = Ok s ↔ prints c s.
  Proof.
    induction c as [s|l IH|l IH|l IH|sec t rc o l IH|c t IH|s|s|st b c ps IH IHps|t l ti x IHt IHx|p d|l o IH|rows IH|defs IH|b t|c IH]
      using content_ind'; intros Hp; inversion Hp as [|? F|? F|? F|? ? ? F|? F]; subst; intros out; cbn [text_F].
    - split; [intros [= ->]; constructor|by inversion 1].
    - assert (∀ ss, omapM (tF jump) l = Ok ss ↔ Forall2 prints l ss) as L.
      { intros ss. rewrite omapM_Forall2. apply prints_mono. clear -IH F. induction F; inversion IH; subst; constructor; auto. }
      split.
      + destruct (omapM (tF jump) l) as [ss| | |] eqn:E; try done. cbn [obind]. intros [= <-]. rewrite <- concat_sconcat.
        constructor. by apply L.
      + inversion 1; subst. erewrite (proj2 (L _)) by done. cbn [obind]. by rewrite concat_sconcat.
    - assert (∀ ss, omapM (tF jump) l = Ok ss ↔ Forall2 prints l ss) as L.
      { intros ss. rewrite omapM_Forall2. apply prints_mono. clear -IH F. induction F; inversion IH; subst; constructor; auto. }
      split.
      + destruct (omapM (tF jump) l) as [ss| | |] eqn:E; try done. cbn [obind]. intros E'. apply (f_equal (λ r, match r with Ok s => s | _ => out end)) in E'. cbn iota beta in E'. subst out. rewrite <- (concat_sjoin " " ss).
        constructor. by apply L.
      + inversion 1; subst. erewrite (proj2 (L _)) by done. cbn [obind]. reflexivity.
    - assert (∀ ss, omapM (tF jump) l = Ok ss ↔ Forall2 prints l ss) as L.
      { intros ss. rewrite omapM_Forall2. apply prints_mono. clear -IH F. induction F; inversion IH; subst; constructor; auto. }
      split.
      + destruct (omapM (tF jump) l) as [ss| | |] eqn:E; try done. cbn [obind]. intros E'. apply (f_equal (λ r, match r with Ok s => s | _ => out end)) in E'. cbn iota beta in E'. subst out. rewrite <- (concat_sjoin nls ss).
        constructor. by apply L.
      + inversion 1; subst. erewrite (proj2 (L _)) by done. cbn [obind]. reflexivity.
    - cbn [String.eqb]. change (String.eqb "inset" "inset") with true. cbn iota. split.
      + destruct (tF jump c) as [s| | |] eqn:E; try done. cbn [obind]. intros [= <-].
        pose proof (prints_inset b c ps s (proj1 (IH F _) eq_refl)) as Q. by rewrite inset_lines in Q.
      + inversion 1 as [| | | |? ? ? s Hs|]; subst. rewrite (proj2 (IH F _) Hs). cbn [obind]. by rewrite inset_lines.
    - rewrite (IH F). split; [by constructor|by inversion 1].
  Qed.

  Lemma text_F_unsupported jump c : unsupported c → ∀ s, tF jump c ≠ Ok s.
  Proof.
    assert (∀ l x ss, x ∈ l → (∀ s, tF jump x ≠ Ok s) → omapM (tF jump) l ≠ Ok ss) as L.
    { intros l x ss Hx N E. apply omapM_Forall2 in E. apply elem_of_list_lookup in Hx as [k Hk].
      destruct (Forall2_lookup_l _ _ _ _ _ E Hk) as (y & _ & E'). by eapply N. }
    induction 1 as [| | | | | | |st b x ps N|l x Hx _ IH|l x Hx _ IH|l x Hx _ IH|b x ps _ IH|x _ IH]; intros out; cbn [text_F]; try done.
    - assert (st ≠ "inset" ∧ st ≠ "string") as [N1 N2].
      { unfold text_styles in N. rewrite !elem_of_cons in N. tauto. }
      destruct (String.eqb_spec st "inset"); [done|]. by destruct (String.eqb_spec st "string").
    - destruct (omapM (tF jump) l) as [ss| | |] eqn:E; try done. by eapply L in E.
    - destruct (omapM (tF jump) l) as [ss| | |] eqn:E; try done. by eapply L in E.
    - destruct (omapM (tF jump) l) as [ss| | |] eqn:E; try done. by eapply L in E.
    - change (String.eqb "inset" "inset") with true. cbn iota. destruct (tF jump x) as [s| | |]; try done. by destruct (IH s).
  Qed.
  Lemma text_unsupported n c s : unsupported c → tx n c ≠ Ok s.
  Proof. destruct (text_unfold n) as (jump & -> & _). intros H. by apply text_F_unsupported. Qed.

  (** *** Tables of contents *)

  Definition follow_toc (s : section) : bool := negb (s_omit s).

  (** What stands for [c] in the table of contents of its parent. *)
  Definition toc_item (c : nat) (x : string) : Prop :=
    ∃ e sub m, text_entry h force str c e ∧ tx m (CToc c) = Ok sub ∧ x = nls +:+ (e +:+ (nls +:+ nls +:+ sub +:+ nls)).

  Lemma blank_nls : blank nls.
  Proof. done. Qed.
  Lemma weave_items (f : string * string * string → string) es xs tail : Forall2 (λ e x, f e = x) es xs → blank tail →
    woven blank xs (sconcat (map f es) +:+ tail).
  Proof.
    intros F Ht. induction F as [|e x es xs He _ IH]; [by constructor|].
    cbn [map sconcat]. rewrite He, sapp_assoc. by apply (woven_cons blank "").
  Qed.

  Lemma toc_text_inv n i s out : h !! i = Some s → tx n (CToc i) = Ok out →
    ∃ xs, Forall2 toc_item (if follow_toc s then s_children s else []) xs ∧ woven blank xs out.
  Proof.
    intros Hi E. destruct (text_unfold n) as (jump & Ej & J). rewrite Ej in E. cbn [text_F] in E.
    unfold toc_text_tmpl, need in E. rewrite Hi in E. unfold follow_toc.
    destruct (s_children s) as [|c0 cs0] eqn:Hcs.
    { injection E as <-. exists []. split; [by destruct (negb _)|by constructor]. }
    destruct (s_omit s); cbn [negb].
    { injection E as <-. exists []. split; [constructor|by constructor]. }
    match type of E with obind _ (omapM ?f ?l) = _ => destruct (omapM f l) as [es| | |] eqn:M; try done end.
    injection E as <-. apply omapM_Forall2 in M. remember (c0 :: cs0) as cs eqn:Q. clear Q Hcs Hi.
    set (f := λ e : string * string * string, match e with (n, t, sub) => nls +:+ n +:+ " " +:+ t +:+ nls +:+ nls +:+ sub +:+ nls end).
    assert (∃ xs, Forall2 toc_item cs xs ∧ Forall2 (λ e x, f e = x) es xs) as (xs & F1 & F2).
    { induction M as [|c e cs es Hc _ IH]; [exists []; split; constructor|].
      destruct IH as (xs & F1 & F2). destruct (h !! c) as [sc|] eqn:Hsc; [|done].
      destruct (number h c) as [nu|] eqn:Hn; [|done]. destruct (strip_aux (s_title sc)) as [t|] eqn:Ht; [|done].
      destruct (jump t) as [shown| | |] eqn:Et; try done. cbn [obind] in Hc.
      destruct (jump (CToc c)) as [sub| | |] eqn:Es; try done. injection Hc as <-.
      destruct J as [J|(m & _ & J)]; [by rewrite J in Et|]. subst jump.
      exists (f (nu, t, sub) :: xs) || exists (f (nu, shown, sub) :: xs). split; [|by constructor]. constructor; [|done].
      exists (nu +:+ " " +:+ shown), sub, m. split; [by exists sc, nu, t, m, shown|]. split; [done|].
      unfold f. by rewrite !sapp_assoc. }
    exists xs. split; [done|]. unfold toc_text. apply woven_between; [exact blank_app|done|].
    by apply weave_items.
  Qed.

  Lemma toc_item_woven i s x : h !! i = Some s → toc_item i x → ∃ e xs, text_entry h force str i e ∧
    Forall2 toc_item (if follow_toc s then s_children s else []) xs ∧ woven blank (e :: xs) x.
  Proof.
    intros Hi (e & sub & m & He & Hsub & ->). destruct (toc_text_inv _ _ _ _ Hi Hsub) as (xs & F & W).
    exists e, xs. split; [done|]. split; [done|]. constructor; [done|].
    do 2 (apply woven_between; [exact blank_app|done|]). apply woven_after; [exact blank_app|done|done].
  Qed.

  Lemma toc_text_woven i l n out : listing h follow_toc i l → tx n (CToc i) = Ok out →
    ∃ l' es, l = i :: l' ∧ Forall2 (text_entry h force str) l' es ∧ woven blank es out.
  Proof.
    intros H E. inversion H as [? s l' Hi Hl]; subst. destruct (toc_text_inv _ _ _ _ Hi E) as (xs & F & W).
    destruct (trees_woven blank blank_app h follow_toc (text_entry h force str) toc_item toc_item_woven _ _ Hl _ F) as (ess & Fe & Fw).
    exists l', (concat ess). split; [done|]. split; [done|]. eapply woven_flatten; [exact blank_app|done|done].
  Qed.

  (** *** Sections *)

  Definition follow_page (s : section) : bool := negb (s_split s).

  Definition section_item (c : nat) (x : string) : Prop :=
    (∀ j s, rtc (edge h follow_page) c j → h !! j = Some s → plain_style s) ∧ ∃ m, tx m (CSection c) = Ok x.

  Lemma section_item_woven i s x : h !! i = Some s → section_item i x → ∃ e xs, text_section h force str i e ∧
    Forall2 section_item (if follow_page s then s_children s else []) xs ∧ woven blank (e :: xs) x.
  Proof.
    intros Hi (Hst & n & E). pose proof (Hst _ _ (rtc_refl _ _) Hi) as Hp.
    destruct (text_unfold n) as (jump & Ej & J). rewrite Ej in E. cbn [text_F] in E.
    unfold visit_section_text, need in E. rewrite Hi in E. cbv zeta in E.
    assert (section_text_tmpl h jump i = Ok x) as E'.
    { destruct Hp as [Hp|Hp]; rewrite Hp in E; exact E. }
    clear E. rename E' into E. unfold section_text_tmpl, need in E. rewrite Hi in E.
    assert (∃ num, (match s_parent s with Some _ => n ← number h i; Some (Some n) | None => Some None end) = Some num ∧
      (s_parent s = None ∧ num = None ∨ ∃ p nu, s_parent s = Some p ∧ number h i = Some nu ∧ num = Some nu)) as (num & En & Hnum).
    { destruct (s_parent s) as [p|]; [|eauto]. destruct (number h i) as [nu|]; [|done]. exists (Some nu). eauto 10. }
    rewrite En in E. destruct (jump (s_title s)) as [title| | |] eqn:Et; try done. cbn [obind] in E.
    destruct (jump (s_body s)) as [body| | |] eqn:Eb; try done. cbn [obind] in E.
    destruct J as [J|(m & _ & J)]; [by rewrite J in Et|]. subst jump.
    set (head := match num with Some n => n +:+ " " | None => "" end).
    assert (text_section h force str i (head +:+ title +:+ body)) as Hsec.
    { exists s, head, m, title, body. split; [done|]. split.
      - destruct Hnum as [[? ->]|(p & nu & ? & ? & ->)]; [by left|right; by exists p, nu].
      - done. }
    exists (head +:+ title +:+ body). unfold follow_page. destruct (s_split s) eqn:Hsp; cbn [negb].
    - injection E as <-. exists []. split; [done|]. split; [constructor|]. unfold section_text. fold head.
      replace (head +:+ title +:+ body +:+ nls +:+ nls +:+ "") with ("" +:+ ((head +:+ title +:+ body) +:+ (nls +:+ nls)))
        by (cbn [String.append]; by rewrite !sapp_assoc).
      constructor; [done|]. by constructor.
    - destruct (omapM (λ c, tx m (CSection c)) (s_children s)) as [xs| | |] eqn:M; try done. injection E as <-.
      apply omapM_Forall2 in M. exists xs. split; [done|]. split.
      + assert (∀ c, c ∈ s_children s → edge h follow_page i c) as He.
        { intros c Hc. exists s. unfold follow_page. by rewrite Hsp. }
        clear -M He Hst. induction M as [|c x cs xs Hc _ IH]; [constructor|]. constructor.
        * split; [|by exists m]. intros j s' R Hj. eapply Hst; [|done]. eapply rtc_l; [|done]. apply He. by left.
        * apply IH. intros c' Hc'. apply He. by right.
      + unfold section_text. fold head.
        match goal with |- woven _ _ ?o => replace o with ("" +:+ ((head +:+ title +:+ body) +:+
          (nls +:+ nls +:+ (nls +:+ sconcat (map (λ s0 : string, nls +:+ s0 +:+ nls) xs) +:+ nls))))
          by (cbn [String.append]; by rewrite !sapp_assoc) end.
        constructor; [done|]. do 3 (apply woven_between; [exact blank_app|done|]).
        clear. induction xs as [|x xs IH]; [by constructor|]. cbn [map sconcat].
        replace ((nls +:+ x +:+ nls) +:+ sconcat (map (λ s0 : string, nls +:+ s0 +:+ nls) xs)) with
          (nls +:+ (x +:+ (nls +:+ sconcat (map (λ s0 : string, nls +:+ s0 +:+ nls) xs)))) by (by rewrite !sapp_assoc).
        rewrite !sapp_assoc. constructor; [done|]. apply woven_between; [exact blank_app|done|]. exact IH.
  Qed.

  Lemma section_woven i l n out : listing h follow_page i l → (∀ j s, j ∈ l → h !! j = Some s → plain_style s) →
    tx n (CSection i) = Ok out → ∃ es, Forall2 (text_section h force str) l es ∧ woven blank es out.
  Proof.
    intros H Hst E. eapply (tree_woven blank blank_app h follow_page (text_section h force str) section_item section_item_woven); [done|].
    split; [|by exists n]. intros j s R. apply Hst. by eapply listing_elem.
  Qed.

  (** *** Nothing shown on a page is dropped *)

  Lemma section_unsupported i l n out j s : listing h follow_page i l → (∀ j s, j ∈ l → h !! j = Some s → plain_style s) →
    j ∈ l → h !! j = Some s → unsupported (s_title s) ∨ unsupported (s_body s) → tx n (CSection i) ≠ Ok out.
  Proof.
    intros H Hst Hj Hs Hu E. destruct (section_woven _ _ _ _ H Hst E) as (es & F & _).
    apply elem_of_list_lookup in Hj as [k Hk]. destruct (Forall2_lookup_l _ _ _ _ _ F Hk) as (e & _ & s' & head & m & t & b & Hs' & _ & Et & Eb & _).
    assert (s' = s) as -> by congruence. destruct Hu as [Hu|Hu]; [by eapply text_unsupported in Et|by eapply text_unsupported in Eb].
  Qed.
End text.
