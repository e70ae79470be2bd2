(** Which anchors a page contains. *)
From Coq Require Import Ascii String Lia.
From stdpp Require Import base tactics relations strings list.
From Verif Require Import GoBase StrProofs Ast Content Section TreeSpec Render ContentProofs CollectSpec
  Html HtmlSpec HtmlProofs HtmlRender HtmlLoad.
Local Open Scope string_scope.
Local Open Scope list_scope.

(** [shown c t]: a target with tag [t] is part of what [c] shows in place: it is not
    in a partial, a reference, a title or content of a target, nor in content that
    is turned into a string. *)
Inductive shown : content → string → Prop :=
| shown_target t l ti x : shown (CTarget t l ti x) t
| shown_seq l c t : c ∈ l → shown c t → shown (CSeq l) t
| shown_para l c t : c ∈ l → shown c t → shown (CPara l) t
| shown_pre l c t : c ∈ l → shown c t → shown (CPre l) t
| shown_link c u t : shown c t → shown (CLink c u) t
| shown_styled st b c ps t : st ≠ "string" → st ≠ "raw-html" → shown c t → shown (CStyled st b c ps) t
| shown_list l o c t : c ∈ l → shown c t → shown (CList l o) t
| shown_table rows r c t : r ∈ rows → c ∈ r → shown c t → shown (CTable rows) t
| shown_def_l defs s d t : (s, d) ∈ defs → shown s t → shown (CDefs defs) t
| shown_def_r defs s d t : (s, d) ∈ defs → shown d t → shown (CDefs defs) t
| shown_aux c t : shown c t → shown (CAux c) t.

(** The anchor that is found by fragment [a]; there is no NUL in HTML. *)
Definition anchor (a : string) : token := TOpen "a" [("id", unnul a)].

(** ** Proof *)

Definition tk (out : string) : Prop := ∃ ts, read SText out = Some (SText, ts).
Definition has (x : token) (out : string) : Prop := ∃ ts, read SText out = Some (SText, ts) ∧ x ∈ ts.

Lemma tk_goes a b s : goes a b s → tk s.
Proof. intros (ts & H & _). by exists ts. Qed.
Lemma tk_has x s : has x s → tk s.
Proof. intros (ts & H & _). by exists ts. Qed.
Lemma tk_app a b : tk a → tk b → tk (a +:+ b).
Proof. intros (ts & H) (ts' & H'). eexists. by eapply read_app. Qed.
Lemma tk_lit a : match read SText a with Some (SText, _) => true | _ => false end = true → tk a.
Proof. destruct (read SText a) as [[[] ts]|] eqn:E; try done. by exists ts. Qed.
Lemma has_l x a b : has x a → tk b → has x (a +:+ b).
Proof. intros (ts & H & Hx) (ts' & H'). eexists. split; [by eapply read_app|]. apply elem_of_app. by left. Qed.
Lemma has_r x a b : tk a → has x b → has x (a +:+ b).
Proof. intros (ts' & H') (ts & H & Hx). eexists. split; [by eapply read_app|]. apply elem_of_app. by right. Qed.
Lemma has_tokens x s : has x s → ∃ ts, tokens s = Some ts ∧ x ∈ ts.
Proof. intros (ts & H & Hx). exists ts. unfold tokens. by rewrite H. Qed.

Lemma tk_concat l : Forall tk l → tk (sconcat l).
Proof. induction 1; cbn [sconcat]; [by apply tk_lit|by apply tk_app]. Qed.
Lemma tk_map {A} (f : A → string) l : (∀ x, x ∈ l → tk (f x)) → tk (sconcat (map f l)).
Proof. intros H. apply tk_concat, Forall_forall. intros s (x & -> & Hx)%elem_of_list_fmap. by apply H. Qed.
Lemma has_concat x l : Forall tk l → ∀ s, s ∈ l → has x s → has x (sconcat l).
Proof.
  induction 1 as [|y l Hy F IH]; intros s Hs Hx; [by apply elem_of_nil in Hs|]. cbn [sconcat].
  apply elem_of_cons in Hs as [-> |Hs]; [apply has_l; [done|by apply tk_concat]|]. apply has_r; [done|]. by eapply IH.
Qed.
Lemma has_map {A} (f : A → string) x l y : (∀ x, x ∈ l → tk (f x)) → y ∈ l → has x (f y) → has x (sconcat (map f l)).
Proof.
  intros H Hy. apply has_concat.
  - apply Forall_forall. intros s (z & -> & Hz)%elem_of_list_fmap. by apply H.
  - by apply elem_of_list_fmap_1.
Qed.
Lemma has_join x sep l : tk sep → Forall tk l → ∀ s, s ∈ l → has x s → has x (sjoin sep l).
Proof.
  intros Hsep. assert (∀ l, Forall tk l → tk (sjoin sep l)) as T.
  { clear -Hsep. induction 1 as [|s ss Hs F IH]; [by apply tk_lit|]. destruct ss as [|s' ss]; [done|]. rewrite sjoin_cons.
    apply tk_app; [done|]. by apply tk_app. }
  induction 1 as [|y l Hy F IH]; intros s Hs Hx; [by apply elem_of_nil in Hs|].
  destruct l as [|z l].
  - apply elem_of_cons in Hs as [-> |Hs]; [done|by apply elem_of_nil in Hs].
  - rewrite sjoin_cons. apply elem_of_cons in Hs as [-> |Hs].
    + apply has_l; [done|]. apply tk_app; [done|]. by apply T.
    + apply has_r; [done|]. apply has_r; [done|]. by eapply IH.
Qed.

Ltac tl := apply tk_lit; vm_compute; reflexivity.
Ltac tka := first [tl|apply tk_app; [tl|tka]|idtac].

Lemma has_id a : has (anchor a) ("<a id=""" +:+ escape a +:+ """></a>").
Proof.
  eexists. split; [eapply read_app; [reflexivity|]; eapply read_app; [apply read_escape_value|reflexivity]|].
  cbn. left.
Qed.
Lemma has_href x u s : has x s → has x ("<a href=""" +:+ url_attr u +:+ """>" +:+ s +:+ "</a>").
Proof.
  intros H. pose proof (goes_href u) as G.
  assert ("<a href=""" +:+ url_attr u +:+ """>" +:+ s +:+ "</a>" = ("<a href=""" +:+ url_attr u +:+ """>") +:+ (s +:+ "</a>")) as ->
    by by rewrite !sapp_assoc.
  apply has_r; [by eapply tk_goes|]. apply has_l; [done|tl].
Qed.
Lemma has_styled st flow pre post x s : styled_wrap st flow = Some (pre, post) → has x s → has x (pre +:+ s +:+ post).
Proof.
  unfold styled_wrap. intros E H.
  repeat match type of E with (if ?b then _ else _) = _ => destruct b; [injection E as <- <-; apply has_r; [tl|]; apply has_l; [done|tl]|] end.
  destruct (String.eqb st "verbatim"); [|done]. destruct flow; injection E as <- <-; apply has_r; try tl; apply has_l; done || tl.
Qed.
Lemma has_list x o ss s : Forall tk ss → s ∈ ss → has x s → has x (list_html o ss).
Proof.
  intros F Hs Hx. rewrite Forall_forall in F.
  assert (has x (sconcat (map (λ s, nls +:+ "  <li>" +:+ s +:+ "</li>" +:+ nls) ss))) as G.
  { eapply has_map; [|exact Hs|].
    - intros z Hz. apply tk_app; [tl|]. apply tk_app; [tl|]. apply tk_app; [by apply F|tl].
    - apply has_r; [tl|]. apply has_r; [tl|]. apply has_l; [done|tl]. }
  unfold list_html. destruct o.
  - change (has x (("<ol>" +:+ nls) +:+ (sconcat (map (λ s, nls +:+ "  <li>" +:+ s +:+ "</li>" +:+ nls) ss) +:+ (nls +:+ "</ol>")))).
    apply has_r; [tl|]. apply has_l; [done|tl].
  - change (has x (("<ul>" +:+ nls) +:+ (sconcat (map (λ s, nls +:+ "  <li>" +:+ s +:+ "</li>" +:+ nls) ss) +:+ (nls +:+ "</ul>")))).
    apply has_r; [tl|]. apply has_l; [done|tl].
Qed.
Lemma has_table x rows r s : Forall (Forall tk) rows → r ∈ rows → s ∈ r → has x s → has x (table_html rows).
Proof.
  intros F Hr Hs Hx. rewrite Forall_forall in F. unfold table_html. do 3 (apply has_r; [tl|]). apply has_l; [|tl].
  eapply has_map; [|exact Hr|].
  - intros z Hz. do 4 (apply tk_app; [tl|]). apply tk_app; [|tl]. apply tk_map. intros y Hy. do 2 (apply tk_app; [tl|]).
    apply tk_app; [|tl]. specialize (F _ Hz). rewrite Forall_forall in F. by apply F.
  - do 4 (apply has_r; [tl|]). apply has_l; [|tl]. eapply has_map; [|exact Hs|].
    + intros y Hy. do 2 (apply tk_app; [tl|]). apply tk_app; [|tl]. specialize (F _ Hr). rewrite Forall_forall in F. by apply F.
    + do 2 (apply has_r; [tl|]). apply has_l; [done|tl].
Qed.
Lemma has_defs x defs s d : Forall (λ p, tk (fst p) ∧ tk (snd p)) defs → (s, d) ∈ defs → has x s ∨ has x d → has x (defs_html defs).
Proof.
  intros F Hr Hx. rewrite Forall_forall in F. unfold defs_html. do 3 (apply has_r; [tl|]). apply has_l; [|tl].
  eapply has_map; [|exact Hr|].
  - intros [s' d'] Hz. destruct (F _ Hz) as [F1 F2]. do 2 (apply tk_app; [tl|]). apply tk_app; [done|].
    do 3 (apply tk_app; [tl|]). apply tk_app; [done|tl].
  - destruct (F _ Hr) as [F1 F2]. simpl in F1, F2. do 2 (apply has_r; [tl|]). destruct Hx as [Hx|Hx].
    + apply has_l; [done|]. do 3 (apply tk_app; [tl|]). apply tk_app; [done|tl].
    + apply has_r; [done|]. do 3 (apply has_r; [tl|]). apply has_l; [done|tl].
Qed.
Lemma has_page x t b : has x b → has x (page_html t b).
Proof.
  intros H. unfold page_html.
  assert (tk (escape t)) as T by (eapply tk_goes, good_escape).
  repeat first [apply has_r; [tl|]|apply has_r; [exact T|]|apply has_l; [done|tl]].
Qed.

Lemma section_parts d name number title body children : 1 ≤ d ≤ 6 → good title → good body →
  (∀ cs, children = Some cs → Forall good cs) → ∀ x,
  x = anchor name ∨ has x title ∨ has x body ∨ (∃ cs s, children = Some cs ∧ s ∈ cs ∧ has x s) →
  has x (section_html (dec d) name number title body children).
Proof.
  intros Hd Ht Hb Hc x Hx. unfold section_html.
  set (anch := "<a id=""" +:+ escape name +:+ """></a>").
  set (num := match number with Some n => _ | None => _ end). set (kids := match children with Some cs => _ | None => _ end).
  assert (tk num) as Hn.
  { unfold num. destruct number as [n|]; [|tl]. apply tk_app; [tl|]. apply tk_app; [eapply tk_goes, good_escape|tl]. }
  assert (tk kids) as Hk.
  { unfold kids. destruct children as [cs|]; [|tl]. specialize (Hc cs eq_refl). rewrite Forall_forall in Hc.
    do 2 (apply tk_app; [tl|]). apply tk_app; [|tl]. apply tk_map. intros s Hs. do 2 (apply tk_app; [tl|]).
    apply tk_app; [by eapply tk_goes, Hc|tl]. }
  assert (∀ cs s, children = Some cs → s ∈ cs → has x s → has x kids) as Hk'.
  { unfold kids. intros cs s -> Hs Hxs. specialize (Hc cs eq_refl). rewrite Forall_forall in Hc.
    do 2 (apply has_r; [tl|]). apply has_l; [|tl]. eapply has_map; [|exact Hs|].
    - intros z Hz. do 2 (apply tk_app; [tl|]). apply tk_app; [by eapply tk_goes, Hc|tl].
    - do 2 (apply has_r; [tl|]). apply has_l; [done|tl]. }
  assert (∀ x, "<h" +:+ dec d +:+ " class=""section-header""><a id=""" +:+ escape name +:+ """></a>" +:+ x =
    ("<h" +:+ dec d +:+ " class=""section-header"">") +:+ (anch +:+ x)) as E.
  { intros y. unfold anch. rewrite !sapp_assoc. reflexivity. }
  rewrite E.
  assert (∀ x, "</h" +:+ dec d +:+ ">" +:+ x = ("</h" +:+ dec d +:+ ">") +:+ x) as E2 by (intros y; by rewrite !sapp_assoc).
  rewrite E2.
  assert (tk ("<h" +:+ dec d +:+ " class=""section-header"">") ∧ tk ("</h" +:+ dec d +:+ ">")) as [T1 T2].
  { do 6 (destruct d as [|d]; [lia|destruct (decide (d = 0)) as [->|]; [split; tl|]]). lia. }
  assert (tk anch) as Ta by (eapply tk_has, has_id).
  apply tk_goes in Ht. apply tk_goes in Hb.
  apply has_r; [done|].
  assert (tk (nls +:+ nls +:+ kids)) as TE by (do 2 (apply tk_app; [tl|]); done).
  destruct Hx as [->|Hx].
  - apply has_l; [apply has_id|]. apply tk_app; [done|]. apply tk_app; [done|]. apply tk_app; [done|].
    do 2 (apply tk_app; [tl|]). by apply tk_app.
  - apply has_r; [done|]. apply has_r; [done|]. destruct Hx as [Hx|Hx].
    + apply has_l; [done|]. apply tk_app; [done|]. do 2 (apply tk_app; [tl|]). by apply tk_app.
    + do 2 (apply has_r; [done|]). do 2 (apply has_r; [tl|]). destruct Hx as [Hx|(cs & s & ? & ? & ?)].
      * by apply has_l.
      * apply has_r; [done|]. do 2 (apply has_r; [tl|]). by eapply Hk'.
Qed.

Section html.
  Context (similar : string → string → bool) (broken : bool) (h : heap).
  Context (force : nat → option content) (str : content → outcome error string).
  Context (Hh : clean_heap h) (Hf : ∀ t c, force t = Some c → clean c = true).

  Notation hF := (html_F similar broken h force str).
  Notation ht := (html similar broken h force str).

  Lemma omapM_parts {A B} (f : A → outcome rerr B) l ss c : omapM f l = Ok ss → c ∈ l → ∃ s, s ∈ ss ∧ f c = Ok s.
  Proof.
    intros E%omapM_Ok. induction E as [|x y l ss Hx F IH]; intros Hc; [by apply elem_of_nil in Hc|].
    apply elem_of_cons in Hc as [-> |Hc]; [exists y; split; [left|done]|]. destruct (IH Hc) as (s & ? & ?). exists s. split; [by right|done].
  Qed.

  Lemma clean_elem l c : forallb clean l = true → c ∈ l → clean c = true.
  Proof. intros H Hc. rewrite forallb_forall in H. by apply H, elem_of_list_In. Qed.

  Lemma omapM_tk jump l ss : jumps jump → forallb clean l = true → omapM (hF jump) l = Ok ss → Forall tk ss.
  Proof.
    intros J C E%omapM_Ok. induction E as [|x y l ss Hx F IH]; constructor.
    - eapply tk_goes, html_F_good; [exact Hh|exact Hf|exact J| |exact Hx]. by eapply clean_elem; [|left].
    - apply IH. cbn [forallb] in C. by apply andb_true_iff in C as [_ C].
  Qed.

  Lemma html_F_anchor jump c t : jumps jump → shown c t → ∀ out, clean c = true → hF jump c = Ok out → has (anchor t) out.
  Proof.
    intros J.
    induction 1 as [t l ti x|l c t Hc _ IH|l c t Hc _ IH|l c t Hc _ IH|c u t _ IH|st b c ps t H1 H2 _ IH|l o c t Hc _ IH
      |rows r c t Hr Hc _ IH|defs s d t Hd _ IH|defs s d t Hd _ IH|c t _ IH]; intros out C; cbn [html_F clean] in *.
    - intros [= <-]. apply has_id.
    - destruct (omapM _ l) as [ss| | |] eqn:E; cbn [obind]; try done. intros [= <-].
      destruct (omapM_parts _ _ _ _ E Hc) as (s & Hs & Es). eapply has_concat; [by eapply omapM_tk|exact Hs|].
      apply IH; [by eapply clean_elem|done].
    - destruct (omapM _ l) as [ss| | |] eqn:E; cbn [obind]; try done. intros [= <-].
      destruct (omapM_parts _ _ _ _ E Hc) as (s & Hs & Es). apply (has_r _ "<p>"); [tl|]. apply has_l; [|tl].
      eapply has_join; [tl|by eapply omapM_tk|exact Hs|]. apply IH; [by eapply clean_elem|done].
    - destruct (omapM _ l) as [ss| | |] eqn:E; cbn [obind]; try done. intros [= <-].
      destruct (omapM_parts _ _ _ _ E Hc) as (s & Hs & Es).
      eapply has_join; [tl|by eapply omapM_tk|exact Hs|]. apply IH; [by eapply clean_elem|done].
    - destruct (hF jump c) as [s| | |]; cbn [obind]; try done. intros [= <-]. apply has_href. by apply IH.
    - apply andb_true_iff in C as [C1 C2]. destruct (styled_wrap _ _) as [[pre post]|] eqn:Ew.
      + destruct (hF jump c) as [s| | |]; cbn [obind]; try done. intros [= <-]. eapply has_styled; [done|]. by apply IH.
      + destruct (String.eqb_spec st "string"); [done|]. by destruct (String.eqb_spec st "raw-html").
    - destruct (omapM _ l) as [ss| | |] eqn:E; cbn [obind]; try done. intros [= <-].
      destruct (omapM_parts _ _ _ _ E Hc) as (s & Hs & Es).
      eapply has_list; [by eapply omapM_tk|exact Hs|]. apply IH; [by eapply clean_elem|done].
    - destruct (omapM _ rows) as [rs| | |] eqn:E; cbn [obind]; try done. intros [= <-].
      destruct (omapM_parts _ _ _ _ E Hr) as (ss & Hss & Ess). destruct (omapM_parts _ _ _ _ Ess Hc) as (s & Hs & Es).
      eapply has_table; [|exact Hss|exact Hs|].
      + apply omapM_Ok in E. clear -E J Hh Hf C. induction E as [|r ss rows rs Hr F IHr]; constructor;
          simpl in C; apply andb_true_iff in C as [C1 C2]; [by eapply omapM_tk|auto].
      + apply IH; [|done]. eapply clean_elem; [|exact Hc]. rewrite forallb_forall in C. by apply C, elem_of_list_In.
    - destruct (omapM _ defs) as [ds| | |] eqn:E; cbn [obind]; try done. intros [= <-].
      destruct (omapM_parts _ _ _ _ E Hd) as ([s' d'] & Hss & Ess). simpl in Ess.
      destruct (hF jump s) as [s1| | |] eqn:E1; cbn [obind] in Ess; try done.
      destruct (hF jump d) as [d1| | |]; cbn [obind] in Ess; try done. injection Ess as -> ->.
      rewrite forallb_forall in C. eapply has_defs; [|exact Hss|left; apply IH; [|done]].
      + apply omapM_Ok in E. clear -E J Hh Hf C. induction E as [|[a b] [p q] defs ds Hr F IHr]; constructor.
        * assert (clean a && clean b = true) as [Ca Cb]%andb_true_iff by (apply (C (a, b)); by left).
          destruct (hF jump a) as [s| | |] eqn:Ea; cbn [obind] in Hr; try done.
          destruct (hF jump b) as [d| | |] eqn:Eb; cbn [obind] in Hr; try done. injection Hr as -> ->.
          split; eapply tk_goes, html_F_good; try exact Hh; try exact Hf; try exact J; [|exact Ea| |exact Eb]; done.
        * apply IHr. intros x Hx. apply C. by right.
      + apply elem_of_list_In, C, andb_true_iff in Hd as [? ?]. done.
    - destruct (omapM _ defs) as [ds| | |] eqn:E; cbn [obind]; try done. intros [= <-].
      destruct (omapM_parts _ _ _ _ E Hd) as ([s' d'] & Hss & Ess). simpl in Ess.
      destruct (hF jump s) as [s1| | |] eqn:E1; cbn [obind] in Ess; try done.
      destruct (hF jump d) as [d1| | |] eqn:E2; cbn [obind] in Ess; try done. injection Ess as -> ->.
      rewrite forallb_forall in C. eapply has_defs; [|exact Hss|right; apply IH; [|done]].
      + apply omapM_Ok in E. clear -E J Hh Hf C. induction E as [|[a b] [p q] defs ds Hr F IHr]; constructor.
        * assert (clean a && clean b = true) as [Ca Cb]%andb_true_iff by (apply (C (a, b)); by left).
          destruct (hF jump a) as [s| | |] eqn:Ea; cbn [obind] in Hr; try done.
          destruct (hF jump b) as [d| | |] eqn:Eb; cbn [obind] in Hr; try done. injection Hr as -> ->.
          split; eapply tk_goes, html_F_good; try exact Hh; try exact Hf; try exact J; [|exact Ea| |exact Eb]; done.
        * apply IHr. intros x Hx. apply C. by right.
      + apply elem_of_list_In, C, andb_true_iff in Hd as [? ?]. done.
    - by apply IH.
  Qed.

  Lemma html_jumps n : jumps (ht n).
  Proof. intros c out. by apply html_good. Qed.
  Lemma html_anchor n c t out : shown c t → clean c = true → ht n c = Ok out → has (anchor t) out.
  Proof.
    intros Hs Hc E. destruct n as [|n]; cbn [html] in E; (eapply html_F_anchor; [|exact Hs|exact Hc|exact E]); [by intros|apply html_jumps].
  Qed.

  (** The style is the default one. *)
  Definition default_style (s : section) : Prop := s_style s = "" ∨ s_style s = "section".

  Lemma section_has n i s out : h !! i = Some s → default_style s → ht n (CSection i) = Ok out →
    (∀ a, a = t_name (s_primary s) ∨ shown (s_title s) a ∨ shown (s_body s) a → has (anchor a) out) ∧
    (∀ c, c ∈ s_children s → s_split s = false → ∃ n' o, ht n' (CSection c) = Ok o ∧ ∀ x, has x o → has x out).
  Proof.
    intros Hi Hst E.
    assert (∃ jump, jumps jump ∧ (∀ c o, jump c = Ok o → ∃ m, ht m c = Ok o) ∧ section_tmpl h jump i = Ok out) as (jump & J & JE & E').
    { exists (match n with 0 => λ _, NoFuel | S n => ht n end). split_and!.
      - destruct n; [done|apply html_jumps].
      - destruct n; [done|eauto].
      - destruct n; cbn [html html_F] in E; unfold visit_section, need in E; rewrite Hi in E; by destruct Hst as [Hst|Hst]; rewrite Hst in E. }
    clear E. unfold section_tmpl, need in E'. rewrite Hi in E'.
    destruct (Hh _ _ Hi) as (_ & Hti & Hbo & _).
    destruct (header_depth h i) as [d|] eqn:Hd; [|done]. destruct (number h i) as [nu|]; [|done].
    assert (1 ≤ d ≤ 6) as Hd'.
    { unfold header_depth in Hd. destruct (page_depth h i) as [k|]; [|done]. cbn [mbind option_bind] in Hd.
      injection Hd as <-. destruct (Nat.ltb_spec 6 (k + 1)); lia. }
    destruct (jump (s_title s)) as [t| | |] eqn:Et; cbn [obind] in E'; try done.
    destruct (jump (s_body s)) as [b| | |] eqn:Eb; cbn [obind] in E'; try done.
    assert (∃ children, (∀ cs, children = Some cs → Forall good cs) ∧
      out = section_html (dec d) (t_name (s_primary s)) (match s_parent s with Some _ => Some nu | None => None end) t b children ∧
      (s_split s = false → ∃ cs, children = Some cs ∧ omapM (λ c, jump (CSection c)) (s_children s) = Ok cs)) as (children & Gc & -> & Hc).
    { destruct (s_split s).
      - injection E' as <-. by exists None.
      - destruct (omapM _ _) as [cs| | |] eqn:Ec; cbn [obind] in E'; try done. injection E' as <-. exists (Some cs). split_and!; [|done|eauto].
        intros cs' [= <-]. apply omapM_Ok in Ec. clear -Ec J. induction Ec; constructor; [|done]. by eapply J; [|done]. }
    assert (good t) as Gt by by eapply J; [|exact Et]. assert (good b) as Gb by by eapply J; [|exact Eb].
    split.
    - intros a Ha. apply section_parts; try done. destruct Ha as [-> |[Ha|Ha]]; [by left|right; left|right; right; left].
      + destruct (JE _ _ Et) as (m & Em). by eapply html_anchor.
      + destruct (JE _ _ Eb) as (m & Em). by eapply html_anchor.
    - intros c Hcc Hsp. destruct (Hc Hsp) as (cs & -> & Ec). destruct (omapM_parts _ _ _ _ Ec Hcc) as (o & Ho & Eo).
      destruct (JE _ _ Eo) as (m & Em). exists m, o. split; [done|]. intros x Hx. apply section_parts; try done. right. right. right. eauto.
  Qed.

  Lemma inlined_has o i : rtc (inlined h) o i → (∀ j x, rtc (inlined h) o j → rtc (inlined h) j i → h !! j = Some x → default_style x) →
    ∀ n out, ht n (CSection o) = Ok out → ∃ n' out', ht n' (CSection i) = Ok out' ∧ ∀ x, has x out' → has x out.
  Proof.
    induction 1 as [o|o c i Hc R IH]; intros Hst n out E; [eauto|].
    destruct Hc as (s & Hs & Hcc & Hsp).
    assert (inlined h o c) as Hoc by by exists s.
    destruct (section_has n o s out Hs) as [_ H]; [apply (Hst o s); [constructor|by econstructor|done]|done|].
    destruct (H c Hcc Hsp) as (n' & o' & E' & Hx).
    destruct (IH) with (n := n') (out := o') as (n2 & o2 & E2 & Hx2); [|done|].
    { intros j x R1 R2 Hj. apply (Hst j x); [by econstructor|done|done]. }
    exists n2, o2. split; [done|]. auto.
  Qed.

  Lemma page_has n o i s out a : html_page similar broken h force str n o = Ok out → rtc (inlined h) o i → h !! i = Some s →
    (∀ j x, rtc (inlined h) o j → rtc (inlined h) j i → h !! j = Some x → default_style x) →
    a = t_name (s_primary s) ∨ shown (s_title s) a ∨ shown (s_body s) a → has (anchor a) out.
  Proof.
    intros E R Hi Hst Ha. unfold html_page, page_tmpl, need in E. destruct (h !! o) as [os|]; [|done].
    apply text_of_Ok in E as (t & E). destruct (ht n (CSection o)) as [b| | |] eqn:Eb; cbn [obind] in E; try done. injection E as <-.
    apply has_page. destruct (inlined_has _ _ R Hst _ _ Eb) as (n' & b' & Eb' & Hx). apply Hx.
    destruct (section_has _ _ _ _ Hi (Hst i s R ltac:(constructor) Hi) Eb') as [H _]. by apply H.
  Qed.
End html.
