(** Documents using the base plugin contain no raw HTML, except through the style
    of a section. *)
From Coq Require Import Ascii String.
From stdpp Require Import base tactics relations strings list.
From Verif Require Import GoBase Ast Content Section ContentProofs TreeSpec TreeProofs TagProofs QueryProofs
  Evaluate EvalProofs EvalFrame EvalInv BaseInv Collect CollectSpec CollectProofs BaseFacts LoadProofs HtmlSpec.
Local Open Scope string_scope.
Local Open Scope list_scope.

(** Styled only by the base plugin. *)
Fixpoint base_made (c : content) : bool :=
  match c with
  | CSeq l | CPara l | CPre l | CList l _ => forallb base_made l
  | CRef _ _ rc _ _ => match rc with Some c => base_made c | None => true end
  | CLink c _ => base_made c
  | CStyled st _ c ps => bool_decide (st ∈ base_styles) && base_made c && match ps with [] => true | _ => false end
  | CTarget _ _ ti x =>
    match ti with Some c => base_made c | None => true end && match x with Some c => base_made c | None => true end
  | CTable rows => forallb (forallb base_made) rows
  | CDefs defs => forallb (λ p, match p with (s, d) => base_made s && base_made d end) defs
  | CAux c => base_made c
  | CString _ | CSection _ | CToc _ | CImage _ _ | CLazy _ _ => true
  end.

Lemma forallb_mono {A} (f g : A → bool) l : Forall (λ x, f x = true → g x = true) l → forallb f l = true → forallb g l = true.
Proof. induction 1 as [|x l Hx _ IH]; simpl; [done|]. rewrite !andb_true_iff. intros [? ?]. auto. Qed.

Lemma base_made_clean c : base_made c = true → clean c = true.
Proof.
  induction c as [s|l IH|l IH|l IH|sec t rc o l IH|c t IH|s|s|st b c ps IH IHps|t l ti x IHt IHx|p d|l o IH|rows IH|defs IH|b t|c IH]
    using content_ind'; cbn [base_made clean]; auto; try by apply forallb_mono.
  - by destruct rc.
  - rewrite !andb_true_iff. intros [[Hst%bool_decide_eq_true ?] _]. split; [|auto].
    destruct (String.eqb_spec st "raw-html") as [->|]; [|done]. exfalso. unfold base_styles in Hst. rewrite !elem_of_cons, elem_of_nil in Hst. naive_solver.
  - rewrite !andb_true_iff. intros [? ?]. split; [destruct ti|destruct x]; auto.
  - apply forallb_mono. eapply Forall_impl; [exact IH|]. intros r. by apply forallb_mono.
  - apply forallb_mono. eapply Forall_impl; [exact IH|]. intros [a b] [Ha Hb]. simpl in *. rewrite !andb_true_iff. naive_solver.
Qed.

Definition made_section (s : section) : Prop :=
  base_made (s_title s) = true ∧ base_made (s_body s) = true ∧
  Forall (λ p : string * option content, ∀ c, snd p = Some c → base_made c = true) (s_partials s) ∧
  Forall (λ t, ∀ c, t_title t = Some c → base_made c = true) (s_tags s).
Definition made (h : heap) : Prop := ∀ i s, h !! i = Some s → made_section s.

Lemma made_upd h i f : made h → (∀ x, made_section x → made_section (f x)) → made (upd h i f).
Proof.
  intros HI Hf j x. rewrite upd_lookup. destruct (decide (i = j)) as [->|]; [|by apply HI].
  destruct (h !! j) as [y|] eqn:Hy; simpl; [|done]. intros [= <-]. eauto.
Qed.

Lemma base_made_closed : closed (λ _ c, base_made c = true).
Proof.
  constructor; try done.
  - intros n n' c Hn Hc. exact Hc.
  - intros n l c Hl Hc. change (forallb base_made (l ++ [c]) = true). change (forallb base_made l = true) in Hl.
    rewrite forallb_app, Hl. simpl. by rewrite Hc.
  - intros n a b Ha Hb. simpl. by rewrite Ha, Hb.
  - intros n l Hl. by apply forallb_Forall.
  - intros n l Hl. by apply forallb_Forall.
Qed.

Lemma made_inv E : base_inv E made (λ _ c, base_made c = true) (λ _, True).
Proof.
  constructor; simpl; try done.
  - apply base_made_closed.
  - intros h parent path HI _ j x [Hx|[Hj Hx]]%lookup_app_Some; [by eapply HI|].
    destruct (j - length h) as [|k]; simpl in Hx; [|done]. injection Hx as <-. repeat split; constructor.
  - intros h i l HI. by apply made_upd.
  - intros h i l HI. by apply made_upd.
  - intros h i f HI. by apply made_upd.
  - intros h i c HI Hc. apply made_upd; [done|]. intros x (H1 & H2 & H3 & H4). by repeat split.
  - intros h i title l tags HI _ Hc. apply made_upd; [done|]. intros x (H1 & H2 & H3 & H4).
    destruct (set_title_rest i title l tags x) as (_ & Hb & _ & _ & _ & Hp & _ & _ & _ & _ & _ & _ & _ & Ht & Hl).
    destruct (set_title_tags_eq i title l tags x) as [Hts Hpr].
    split_and!; [by rewrite Ht|by rewrite Hb|by rewrite Hp|]. rewrite Hts. apply Forall_fmap, Forall_forall.
    intros n _ c. simpl. by intros [= <-].
  - intros h i name c HI Hc. apply made_upd; [done|]. intros x (H1 & H2 & H3 & H4).
    split_and!; try done. simpl. clear -H3 Hc. induction (s_partials x) as [|[k v] ps IH]; simpl.
    + repeat constructor. simpl. by intros ? [= <-].
    + inversion H3; subst. destruct (String.eqb k name); constructor; try done; [by intros ? [= <-]|by apply IH].
  - intros h i name HI. by apply made_upd.
  - intros h i a b c d HI. by apply made_upd.
  - intros h i j HI _ _. by apply made_upd.
  - intros n st c Hst ->. rewrite !andb_true_r. by apply bool_decide_eq_true.
  - intros n l o. split; intros H; by apply forallb_Forall.
  - intros n rows Hr. apply forallb_Forall. eapply Forall_impl; [exact Hr|]. intros r Hr'. by apply forallb_Forall.
  - intros n defs Hd. apply forallb_Forall. eapply Forall_impl; [exact Hd|]. intros [a b] [Ha Hb]. simpl in *. by rewrite Ha, Hb.
  - intros n i t rc l _ Hx. by destruct rc.
  - intros n t l ti x Ht Hx. rewrite Ht. destruct x; done.
Qed.

(** ** Collection *)

Definition keeps (m : CM) : Prop := ∀ s s', m s = Ok s' → made (fst s) → made (fst s').

Lemma keeps_skip : keeps cskip.
Proof. by intros s s' [= <-]. Qed.
Lemma keeps_panic : keeps cpanic.
Proof. done. Qed.
Lemma keeps_seq l : Forall keeps l → keeps (cseq l).
Proof.
  induction 1 as [|m l Hm _ IH]; intros s s'; simpl; [by intros [= <-]|].
  destruct (m s) as [s1|e| |] eqn:Hs; simpl; [|done..]. intros H K. eapply IH; [done|]. by eapply Hm.
Qed.
Lemma keeps_range ord l : Forall keeps l → keeps (map_range ord l).
Proof.
  intros Hl s s' H. unfold map_range in H. apply (keeps_seq) in H; [done|].
  rewrite Forall_forall in *. intros m Hm. apply elem_of_list_omap in Hm as (i & _ & Hi).
  apply Hl. by eapply elem_of_list_lookup_2.
Qed.
Lemma keeps_map {A} (f : A → CM) l : Forall (λ x, keeps (f x)) l → Forall keeps (map f l).
Proof. intros H. by apply Forall_fmap. Qed.
Lemma keeps_all {A} (f : A → CM) (b : A → bool) l :
  Forall (λ x, b x = true → keeps (f x)) l → forallb b l = true → keeps (cseq (map f l)).
Proof.
  intros F. rewrite forallb_Forall. intros G. apply keeps_seq, keeps_map. rewrite Forall_forall in *. auto.
Qed.

Lemma visit_keeps ord jump cur c : (∀ a b, keeps (jump a b)) → base_made c = true → keeps (visit ord jump cur c).
Proof.
  intros Hj.
  induction c as [s|l IH|l IH|l IH|sec t rc o l IH|c t IH|s|s|st b c ps IH IHps|t l ti x IH1 IH2|p d|l o IH|rows IH|defs IH|b t|c IH]
      using content_ind'; cbn [visit base_made]; intros HB; try apply keeps_skip; try (by apply Hj); try (by auto); try by eapply keeps_all.
  - rewrite !andb_true_iff in HB. destruct HB as [[_ HB] Hps]. destruct ps; [|done].
    apply (keeps_seq [_; _]). apply Forall_cons_2; [by apply IH|]. apply Forall_cons_2; [|constructor].
    apply keeps_range. constructor.
  - intros s s'. simpl. destruct (fst s !! cur) as [y|] eqn:Hy; [|done]. intros [= <-] K. simpl.
    apply made_upd; [done|]. intros z (H1 & H2 & H3 & H4). split_and!; try done. simpl. apply Forall_app. split; [done|].
    constructor; [|constructor]. simpl. intros c ->. by apply andb_true_iff in HB as [? _].
  - apply (keeps_all _ (forallb base_made)); [|done]. eapply Forall_impl; [exact IH|]. intros r Hr. by apply keeps_all.
  - apply (keeps_all _ (λ p, match p with (s, d) => base_made s && base_made d end)); [|done].
    eapply Forall_impl; [exact IH|]. intros [a b] [Ha Hb] [? ?]%andb_true_iff.
    apply (keeps_seq [_; _]). apply Forall_cons_2; [by apply Ha|]. apply Forall_cons_2; [by apply Hb|constructor].
Qed.

Lemma collect_keeps ord n : ∀ cur con, keeps (collect ord n cur con).
Proof.
  induction n as [|n IH]; intros cur con; simpl; [done|]. unfold visit_section. intros s s'.
  destruct (fst s !! con) as [x|] eqn:Hx; [|done].
  intros H K. destruct (K _ _ Hx) as (H1 & H2 & H3 & H4). apply keeps_seq in H; [auto|].
  apply Forall_app. split.
  - apply Forall_cons_2; [by apply visit_keeps|]. apply Forall_cons_2; [by apply visit_keeps|].
    apply Forall_cons_2; [|constructor]. apply keeps_range, keeps_map.
    eapply Forall_impl; [exact H3|]. intros [k [v|]] Hv; simpl; [|apply keeps_panic]. apply visit_keeps; [done|by apply Hv].
  - apply keeps_map. rewrite Forall_forall. auto.
Qed.

(** ** Loads *)

(** Any number of loads by which only the base plugin is used. *)
Inductive base_history : st → Prop :=
| base_start : base_history (St [] [])
| base_load E ord n parent path fs s : base_history s → base_only E →
    match parent with Some p => p < length (st_heap s) | None => True end →
    base_history (fst (load_in E ord n parent path fs s)).

Lemma base_history_made s : base_history s → made (st_heap s).
Proof.
  induction 1 as [|E ord n parent path fs s _ IH Hb Hp]; [done|].
  pose proof (base_eval_inv E _ _ _ Hb (made_inv E)) as HE. unfold load_in, mbind.
  destruct (tr_evaluate_file E _ _ _ HE (eval E n) (tr_eval E _ _ _ HE n) (length (st_heap s)) parent path fs
    Hp (λ _, I) (λ _ _ _, I) s IH (le_n _)) as (HI & _).
  destruct (evaluate_file E (eval E n) parent path fs s) as [s1 [i|e| |]]; simpl in *; try done.
  unfold run_stages. destruct (collect _ _ _ _ _) as [[h k]|e| |] eqn:Hc; simpl; try done.
  by apply (collect_keeps _ _ _ _ _ _ Hc).
Qed.

Lemma base_history_clean s : base_history s → (∀ i x, st_heap s !! i = Some x → s_style x ≠ "raw-html") →
  clean_heap (st_heap s).
Proof.
  intros Hs Hst i x Hx. destruct (base_history_made s Hs i x Hx) as (H1 & H2 & _ & H4).
  split_and!; [by eapply Hst|by apply base_made_clean..|].
  eapply Forall_impl; [exact H4|]. intros t Ht c Hc. by apply base_made_clean, Ht.
Qed.
