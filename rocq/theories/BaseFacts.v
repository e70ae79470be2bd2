(** What holds of every state reached by loading documents that use the base
    plugin only: sections contain no sections as content, their partials are not
    nil, their tags before collection are those of the title; errors are wrapped at
    most once. *)
From Coq Require Import Ascii String.
From stdpp Require Import base tactics relations strings list.
From Verif Require Import GoBase Ast Content Section ContentProofs TreeSpec TreeProofs TagProofs QueryProofs
  Evaluate EvalProofs EvalFrame EvalInv BaseInv Collect CollectSpec CollectProofs.

(** The tag [\title] defines in section [i]. *)
Definition title_tag (i : nat) (x : section) (name : string) : tag :=
  Tag name (Some (s_title x)) (Some i) "" None (s_titleloc x).

(** The section's tags are those its title defines; the first one names the page. *)
Definition title_tagged (i : nat) (x : section) : Prop :=
  ∃ names, s_tags x = map (title_tag i x) names ∧ s_primary x = hd tag0 (s_tags x).

(** Only errors that are not pretty get wrapped. *)
Definition wrapped_once (e : error) : Prop :=
  match e with EFailed _ e' _ => is_pretty e' = false | _ => True end.

(** Of the sections from [n0] on. *)
Definition base_state (n0 : nat) (h : heap) : Prop := ∀ j x, n0 ≤ j → h !! j = Some x → plain x ∧ title_tagged j x.

Lemma set_title_tags_eq i title l tags x :
  s_tags (set_title i title l tags x) = map (λ name, Tag name (Some title) (Some i) "" None l) tags ∧
  s_primary (set_title i title l tags x) = hd tag0 (s_tags (set_title i title l tags x)).
Proof.
  split; [|done]. unfold set_title. simpl.
  assert (∀ y, s_tags (fold_left (λ s name, set_tag i name (Some title) l [] s) tags y) =
    s_tags y ++ map (λ name, Tag name (Some title) (Some i) "" None l) tags) as Hgo.
  { induction tags as [|n tags IH]; intros y; simpl; [by rewrite app_nil_r|].
    rewrite (IH (set_tag i n (Some title) l [] y)). simpl. by rewrite <- app_assoc. }
  by rewrite Hgo.
Qed.

Lemma base_state_upd n0 h i f : base_state n0 h →
  (∀ x, h !! i = Some x → plain x → title_tagged i x → plain (f x) ∧ title_tagged i (f x)) → base_state n0 (upd h i f).
Proof.
  intros HI Hf j x Hj. rewrite upd_lookup. destruct (decide (i = j)) as [->|]; [|by apply HI].
  destruct (h !! j) as [y|] eqn:Hy; simpl; [|done]. intros [= <-]. destruct (HI _ _ Hj Hy). by apply Hf.
Qed.

Lemma forallb_Forall {A} (f : A → bool) l : forallb f l = true ↔ Forall (λ x, f x = true) l.
Proof. induction l as [|x l IH]; simpl; [done|]. rewrite andb_true_iff, IH. by rewrite Forall_cons. Qed.

Lemma no_sec_closed : closed (λ _ c, no_sec c = true).
Proof.
  constructor; try done.
  - intros n n' c Hn Hc. exact Hc.
  - intros n l c Hl Hc. change (forallb no_sec (l ++ [c]) = true). change (forallb no_sec l = true) in Hl.
    rewrite forallb_app, Hl. simpl. by rewrite Hc.
  - intros n a b Ha Hb. simpl. by rewrite Ha, Hb.
  - intros n l Hl. by apply forallb_Forall.
  - intros n l Hl. by apply forallb_Forall.
Qed.

Lemma base_facts E n0 : (∀ path mt e, e_fs E path = Some (mt, inr e) → wrapped_once e) →
  base_inv E (base_state n0) (λ _ c, no_sec c = true) wrapped_once.
Proof.
  intros Hpe.
  constructor; simpl; try done.
  - apply no_sec_closed.
  - intros h parent path HI _ j x Hn [Hx|[Hj Hx]]%lookup_app_Some; [by apply HI|].
    destruct (j - length h) as [|k]; simpl in Hx; [|done]. injection Hx as <-.
    split; [repeat split; constructor|]. by exists [].
  - intros h i l HI. by apply base_state_upd.
  - intros h i l HI. by apply base_state_upd.
  - intros h i f HI. by apply base_state_upd.
  - intros h i c HI Hc. apply base_state_upd; [done|]. intros x _ (H1 & H2 & H3) Ht. split; [|done]. by repeat split.
  - intros h i title l tags HI _ Hc. apply base_state_upd; [done|]. intros x _ (H1 & H2 & H3) _.
    destruct (set_title_rest i title l tags x) as (_ & Hb & _ & _ & _ & Hp & _ & _ & _ & _ & _ & _ & _ & Ht & Hl).
    split; [split_and!; [by rewrite Ht|by rewrite Hb|by rewrite Hp]|]. exists tags.
    destruct (set_title_tags_eq i title l tags x) as [Hts Hpr]. split; [|done]. rewrite Hts.
    apply map_ext. intros n. unfold title_tag. by rewrite Ht, Hl.
  - intros h i name c HI Hc. apply base_state_upd; [done|]. intros x _ (H1 & H2 & H3) Ht. split; [|done].
    repeat split; try done. simpl. clear -H3 Hc. induction (s_partials x) as [|[k v] ps IH]; simpl.
    + repeat constructor. by exists c.
    + inversion H3; subst. destruct (String.eqb k name); constructor; try done; [by exists c|by apply IH].
  - intros h i name HI. by apply base_state_upd.
  - intros h i a b c d HI. by apply base_state_upd.
  - intros h i j HI _ _. by apply base_state_upd.
  - intros n st c _ ->. done.
  - intros n l o. split; intros H; by apply forallb_Forall.
  - intros n rows Hr. apply forallb_Forall. eapply Forall_impl; [exact Hr|]. intros r Hr'. by apply forallb_Forall.
  - intros n defs Hd. apply forallb_Forall. eapply Forall_impl; [exact Hd|]. intros [a b] [Ha Hb]. simpl in *. by rewrite Ha, Hb.
  - intros n i t rc l _ Hx. by destruct rc.
  - intros n t l ti x Ht Hx. rewrite Ht. destruct x; done.
  - intros fn l e He. unfold wrap_error. destruct (is_pretty e) eqn:Hp; [done|]. done.
Qed.
