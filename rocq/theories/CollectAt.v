(** Collection keeps the locations of a book; references that fail tell where. *)
From Coq Require Import Ascii String.
From stdpp Require Import base tactics relations strings list.
From Verif Require Import GoBase StrProofs Ast Content Section ContentSpec ContentProofs TreeSpec TreeProofs TagProofs QueryProofs
  Evaluate EvalProofs EvalFrame EvalInv BaseInv BaseFacts Collect CollectSpec CollectProofs LoadProofs HtmlLoad HtmlProofs Sound
  EndSpec Paths EvalEnds LoadEnds EvalSpec EvalTheory EvalFail EvalMore EvalLoc CrashSpec EvalCrash LocSpec EvalAt.
Local Open Scope string_scope.
Local Open Scope list_scope.

(** Collection has no errors. *)
Definition no_error (m : CM) : Prop := ∀ s e, m s ≠ Err e.
Lemma seq_no_error l : Forall no_error l → no_error (cseq l).
Proof.
  induction 1 as [|m l Hm _ IH]; intros s e; simpl; [done|]. destruct (m s) as [s1|e1| |] eqn:E; simpl; try done.
  intros [= ->]. by apply (Hm s e).
Qed.
Lemma range_no_error ord l : Forall no_error l → no_error (map_range ord l).
Proof.
  intros H s e. unfold map_range. apply seq_no_error. rewrite Forall_forall in *. intros m Hm.
  apply elem_of_list_omap in Hm as (i & _ & Hi). apply H. by eapply elem_of_list_lookup_2.
Qed.
Lemma visit_no_error ord jump cur c : (∀ a b, no_error (jump a b)) → no_error (visit ord jump cur c).
Proof.
  intros Hj.
  induction c as [s|l IH|l IH|l IH|sec t rc o l IH|c t IH|s|s|st b c ps IH IHps|t l ti x IH1 IH2|p d|l o IH|rows IH|defs IH|b t|c IH]
      using content_ind'; cbn [visit]; try done; try (by auto); try by apply seq_no_error, Forall_fmap.
  - apply seq_no_error. constructor; [done|]. apply Forall_singleton. apply range_no_error, Forall_fmap.
    eapply Forall_impl; [exact IHps|]. intros [k [v|]] Hv; simpl in *; [done|by intros s e].
  - intros s e. by destruct (fst s !! cur).
  - apply seq_no_error, Forall_fmap. eapply Forall_impl; [exact IH|]. intros r Hr. by apply seq_no_error, Forall_fmap.
  - apply seq_no_error, Forall_fmap. eapply Forall_impl; [exact IH|]. intros [a b] [? ?]. apply seq_no_error.
    constructor; [done|]. by apply Forall_singleton.
Qed.
Lemma collect_no_error ord k : ∀ cur con s e, collect ord k cur con s ≠ Err e.
Proof.
  induction k as [|k IH]; intros cur con s e; simpl; [done|]. unfold visit_section. destruct (fst s !! con) as [x|]; [|done].
  apply seq_no_error, Forall_app. split.
  - constructor; [by apply visit_no_error|]. constructor; [by apply visit_no_error|]. apply Forall_singleton.
    apply range_no_error, Forall_fmap, Forall_forall. intros [p [v|]] _; simpl; [by apply visit_no_error|by intros ? ?].
  - apply Forall_fmap, Forall_forall. intros c _. intros s' e'. apply IH.
Qed.

Section at_.
  Context (occurs : string → node → Prop).
  Notation mark_ok := (mark_ok occurs).
  Notation marked := (marked occurs).
  Notation marked_option := (marked_option occurs).
  Notation heap_ok := (heap_ok occurs).

  Lemma keeps_refl h : keeps h h. Proof. by intros i f. Qed.
  Lemma keeps_trans a b c : keeps a b → keeps b c → keeps a c.
  Proof. intros H1 H2 i f H. by apply H2, H1. Qed.

  (** From heaps that keep the files of [h0]. *)
  Definition akeeps (h0 : heap) (m : CM) : Prop :=
    ∀ s s', length (fst s) = length h0 → keeps h0 (fst s) → sturdy (fst s) → heap_ok (fst s) → m s = Ok s' →
      keeps (fst s) (fst s') ∧ sturdy (fst s') ∧ heap_ok (fst s') ∧ length (fst s') = length h0.

  Lemma akeeps_seq h0 l : Forall (akeeps h0) l → akeeps h0 (cseq l).
  Proof.
    induction 1 as [|m l Hm _ IH]; intros s s' Hn K S O; simpl; [intros [= <-]; split_and!; try done; apply keeps_refl|].
    destruct (m s) as [s1|e| |] eqn:Hs; simpl; [|done..]. intros H. destruct (Hm _ _ Hn K S O Hs) as (K1 & S1 & O1 & L1).
    destruct (IH _ _ L1 (keeps_trans _ _ _ K K1) S1 O1 H) as (K2 & ? & ? & ?). split_and!; try done. by eapply keeps_trans.
  Qed.
  Lemma akeeps_range h0 ord l : Forall (akeeps h0) l → akeeps h0 (map_range ord l).
  Proof.
    intros Hl s s' Hn K S O H. unfold map_range in H. eapply (akeeps_seq h0) in H; try done; simpl in *; try done.
    rewrite Forall_forall in *. intros m Hm. apply elem_of_list_omap in Hm as (i & _ & Hi).
    apply Hl. by eapply elem_of_list_lookup_2.
  Qed.
  Lemma akeeps_all {A} h0 f (v : A → CM) (mk : A → list mark) (b : A → bool) l :
    Forall (λ x, b x = true → Forall (mark_ok h0 f) (mk x) → akeeps h0 (v x)) l → forallb b l = true →
    Forall (mark_ok h0 f) (flat_map mk l) → akeeps h0 (cseq (map v l)).
  Proof.
    intros F. rewrite forallb_Forall, Forall_flat_map. intros G M. apply akeeps_seq, Forall_fmap.
    rewrite Forall_forall in *. intros x Hx. simpl. auto.
  Qed.

  Lemma visit_akeeps h0 ord jump cur f c : in_file h0 cur f → sound (length h0) c = true → marked h0 f c →
    akeeps h0 (visit ord jump cur c).
  Proof.
    intros Hf. assert (akeeps h0 cskip) as Hskip by (intros s s' ? ? ? ? [= <-]; split_and!; try done; apply keeps_refl).
    unfold marked.
    induction c as [s|l IH|l IH|l IH|sec t rc o l IH|c t IH|s|s|st b c ps IH IHps|t l ti x IH1 IH2|p d|l o IH|rows IH|defs IH|b t|c IH]
        using content_ind'; cbn [visit sound marks]; intros HB HM; try done; try (by auto); try by eapply akeeps_all.
    - rewrite !andb_true_iff in HB. destruct HB as [HB Hps]. destruct ps; [|done]. apply Forall_app in HM as [HM _].
      apply (akeeps_seq h0 [_; _]). apply Forall_cons_2; [by apply IH|]. apply Forall_cons_2; [|constructor].
      apply akeeps_range. constructor.
    - intros s s' Hn K S O Hs. rewrite !Forall_cons, !Forall_app in HM. destruct HM as (HM1 & HM2 & HM3). simpl in HM1.
      simpl in Hs. destruct (fst s !! cur) as [y|] eqn:Hy; [|done]. injection Hs as <-. simpl.
      destruct (pres_upd cur (set_tag_anchored cur t ti l x t) (St (fst s) []) [] (λ _, conj eq_refl eq_refl)) as [_ K'].
      split_and!; [exact K'| | |by rewrite upd_length].
      + apply sturdy_upd; [done|]. intros z Hz (H1 & H2 & H3 & H4 & H5). split_and!; try done. simpl. apply Forall_app. split; [done|].
        constructor; [|constructor]. split; [done|]. simpl. destruct ti as [ti|]; [|done]. exists ti. split; [done|].
        apply andb_true_iff in HB as [? _]. by rewrite Hn.
      + apply heap_ok_upd; [done|done|]. intros z f' Hz Hf' (H1 & H2 & H3 & H4 & H5 & H6).
        assert (f' = f) as -> by (eapply in_file_fun; [exact S|exact Hf'|by apply K]).
        split_and!; try done. simpl. apply Forall_app. split; [done|]. apply Forall_singleton. split; [done|]. simpl.
        split_and!; [by right| |].
        * destruct ti; [|done]. simpl. by eapply marked_mono.
        * destruct x; [|done]. simpl. by eapply marked_mono.
    - apply (akeeps_all h0 f _ (flat_map marks) (forallb (sound (length h0)))); try done.
      eapply Forall_impl; [exact IH|]. intros r Hr Hb Hm. by eapply akeeps_all.
    - apply (akeeps_all h0 f _ (λ p, match p with (s, d) => marks s ++ marks d end)
        (λ p, match p with (s, d) => sound (length h0) s && sound (length h0) d end)); try done.
      eapply Forall_impl; [exact IH|]. intros [a b] [Ha Hb] [? ?]%andb_true_iff [? ?]%Forall_app.
      apply (akeeps_seq h0 [_; _]). apply Forall_cons_2; [by apply Ha|]. apply Forall_cons_2; [by apply Hb|constructor].
  Qed.

  Lemma collect_akeeps ord k : ∀ h0 cur, akeeps h0 (collect ord k cur cur).
  Proof.
    induction k as [|k IH]; intros h0 cur; simpl; [done|]. unfold visit_section. intros s s' Hn K S O.
    destruct (fst s !! cur) as [x|] eqn:Hx; [|done]. intros H.
    destruct (S _ _ Hx) as (H1 & H2 & H3 & H4 & H5). destruct (O _ _ Hx) as (f & Hf & M1 & M2 & M3 & M4 & _).
    rewrite <-Hn. apply (akeeps_seq (fst s)) in H; [done| |done|apply keeps_refl|done..].
    apply Forall_app. split.
    - apply Forall_cons_2; [by eapply visit_akeeps|]. apply Forall_cons_2; [by eapply visit_akeeps|].
      apply Forall_cons_2; [|constructor]. apply akeeps_range, Forall_fmap. rewrite Forall_forall in *. intros p Hp.
      destruct (H3 _ Hp) as (c & E & Hc). specialize (M3 _ Hp). simpl in *. rewrite E in *. by eapply visit_akeeps.
    - apply Forall_fmap, Forall_forall. intros c _. apply IH.
  Qed.

  Lemma run_stages_ok ord i s : sturdy (st_heap s) → heap_ok (st_heap s) → heap_ok (st_heap (fst (run_stages ord i s))).
  Proof.
    intros S O. unfold run_stages. destruct (collect _ _ _ _ _) as [[h k]|e| |] eqn:Hc; simpl; try done.
    by destruct (collect_akeeps ord _ (st_heap s) _ (st_heap s, 0) _ eq_refl (keeps_refl _) S O Hc) as (_ & _ & ? & _).
  Qed.
End at_.
