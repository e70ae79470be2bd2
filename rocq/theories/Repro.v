(** Collection in another order gives the same tags in another order. *)
From Coq Require Import Ascii String Lia.
From stdpp Require Import base tactics relations strings list.
From Verif Require Import GoBase Ast Content ContentProofs Section Evaluate Collect CollectSpec CollectProofs ReproSpec.

Definition bare (s : section) : section := set_tags s [].
Definition skel (h : heap) : heap := map bare h.

Lemma skel_lookup h i : skel h !! i = bare <$> h !! i.
Proof. unfold skel. by rewrite list_lookup_fmap. Qed.

Definition tags_for (j : nat) (L : list (nat * tgt)) : list tag :=
  map (λ p, tag_of j (snd p)) (filter (λ p, fst p = j) L).

Lemma tags_for_app j L1 L2 : tags_for j (L1 ++ L2) = tags_for j L1 ++ tags_for j L2.
Proof. unfold tags_for. by rewrite filter_app, map_app. Qed.
Lemma tags_for_perm j L1 L2 : L1 ≡ₚ L2 → tags_for j L1 ≡ₚ tags_for j L2.
Proof. intros H. unfold tags_for. apply Permutation_map. by rewrite H. Qed.

Definition grown (h : heap) (L : list (nat * tgt)) (h' : heap) : Prop :=
  length h' = length h ∧
  ∀ j s, h !! j = Some s → ∃ B, h' !! j = Some (set_tags s (s_tags s ++ B)) ∧ B ≡ₚ tags_for j L.

Lemma set_tags_id s : set_tags s (s_tags s) = s.
Proof. by destruct s. Qed.
Lemma set_tags_set s a b : set_tags (set_tags s a) b = set_tags s b.
Proof. done. Qed.

Lemma grown_refl h : grown h [] h.
Proof. split; [done|]. intros j s Hs. exists []. by rewrite app_nil_r, set_tags_id. Qed.
Lemma grown_perm h L L' h' : L ≡ₚ L' → grown h L h' → grown h L' h'.
Proof.
  intros HL [H1 H2]. split; [done|]. intros j s Hs. destruct (H2 _ _ Hs) as (B & ? & HB). exists B. split; [done|].
  by rewrite HB, tags_for_perm.
Qed.
Lemma grown_trans h L1 h1 L2 h2 : grown h L1 h1 → grown h1 L2 h2 → grown h (L1 ++ L2) h2.
Proof.
  intros [A1 A2] [B1 B2]. split; [congruence|]. intros j s Hs.
  destruct (A2 _ _ Hs) as (B & E1 & P1). destruct (B2 _ _ E1) as (C & E2 & P2).
  exists (B ++ C). rewrite E2. simpl. rewrite set_tags_set, <- app_assoc. split; [done|]. by rewrite tags_for_app, P1, P2.
Qed.
Lemma grown_skel h L h' : grown h L h' → skel h' = skel h.
Proof.
  intros [H1 H2]. apply list_eq. intros i. rewrite !skel_lookup. destruct (h !! i) as [s|] eqn:E.
  - destruct (H2 _ _ E) as (B & -> & _). done.
  - apply lookup_ge_None in E. rewrite <- H1 in E. apply lookup_ge_None in E. by rewrite E.
Qed.

Section agree.
  Context (K : heap).

  Definition denotes (m : CM) (L : list (nat * tgt)) : Prop :=
    ∀ h k, skel h = K → ∃ h' k', m (h, k) = Ok (h', k') ∧ grown h L h'.
  Definition runs (m : CM) : Prop := ∃ h k h' k', skel h = K ∧ m (h, k) = Ok (h', k').
  Definition agree (m m' : CM) : Prop := runs m → ∃ L, denotes m L ∧ denotes m' L.

  Lemma denotes_skip : denotes cskip [].
  Proof. intros h k _. exists h, k. split; [done|apply grown_refl]. Qed.
  Lemma agree_skip : agree cskip cskip.
  Proof. intros _. exists []. split; apply denotes_skip. Qed.
  Lemma agree_panic : agree cpanic cpanic.
  Proof. by intros (? & ? & ? & ? & ? & ?). Qed.

  Lemma denotes_cseq l Ls : Forall2 denotes l Ls → denotes (cseq l) (concat Ls).
  Proof.
    induction 1 as [|m L l Ls Hm Hl IH]; [apply denotes_skip|]. intros h k Hh. simpl.
    destruct (Hm h k Hh) as (h1 & k1 & -> & G1). simpl.
    destruct (IH h1 k1) as (h2 & k2 & -> & G2); [by rewrite (grown_skel _ _ _ G1)|].
    exists h2, k2. split; [done|]. by eapply grown_trans.
  Qed.

  Lemma runs_cseq l l' : Forall2 agree l l' → runs (cseq l) → Forall runs l.
  Proof.
    induction 1 as [|m m' l l' Hm Hl IH]; [constructor|]. intros (h & k & h2 & k2 & Hh & E). simpl in E.
    destruct (m (h, k)) as [[h1 k1]|e| |] eqn:Em; try done. simpl in E.
    assert (runs m) as Hr by (by exists h, k, h1, k1). constructor; [done|].
    destruct (Hm Hr) as (L & D & _). destruct (D h k Hh) as (h1' & k1' & E1 & G). rewrite Em in E1. injection E1 as <- <-.
    apply IH. exists h1, k1, h2, k2. split; [|done]. by rewrite (grown_skel _ _ _ G).
  Qed.

  Lemma agree_all l l' : Forall2 agree l l' → Forall runs l → ∃ Ls, Forall2 denotes l Ls ∧ Forall2 denotes l' Ls.
  Proof.
    induction 1 as [|m m' l l' Hm Hl IH]; intros Hr; [exists []; split; constructor|].
    inversion Hr as [|? ? H1 H2]; subst. destruct (Hm H1) as (L & D & D'). destruct (IH H2) as (Ls & F & F').
    exists (L :: Ls). split; by constructor.
  Qed.

  Lemma agree_cseq l l' : Forall2 agree l l' → agree (cseq l) (cseq l').
  Proof.
    intros H Hr. destruct (agree_all l l' H (runs_cseq l l' H Hr)) as (Ls & F & F').
    exists (concat Ls). split; by apply denotes_cseq.
  Qed.

  Lemma concat_perm {A} (l l' : list (list A)) : l ≡ₚ l' → concat l ≡ₚ concat l'.
  Proof.
    induction 1 as [|x l l' H IH|x y l|l1 l2 l3 H1 IH1 H2 IH2]; simpl; [done|by rewrite IH| |by etrans].
    rewrite !app_assoc. by rewrite (Permutation_app_comm x y).
  Qed.

  Lemma denotes_range ord l Ls : orders ord → Forall2 denotes l Ls → denotes (map_range ord l) (concat Ls).
  Proof.
    intros Hord HF h k Hh. unfold map_range. simpl.
    pose proof (omap_perm_seq l (ord k (length l)) (Hord _ _)) as HP.
    destruct (Forall2_perm_l _ _ _ _ HF (symmetry HP)) as (Ls' & PL & F').
    destruct (denotes_cseq _ _ F' h (S k) Hh) as (h' & k' & E & G).
    exists h', k'. split; [done|]. eapply grown_perm; [|done]. apply concat_perm. by symmetry.
  Qed.

  Lemma runs_range ord l l' : orders ord → Forall2 agree l l' → runs (map_range ord l) → Forall runs l.
  Proof.
    intros Hord HF (h & k & h' & k' & Hh & E). unfold map_range in E. simpl in E.
    pose proof (omap_perm_seq l (ord k (length l)) (Hord _ _)) as HP.
    destruct (Forall2_perm_l _ _ _ _ HF (symmetry HP)) as (l2 & _ & F').
    rewrite <- HP. eapply runs_cseq; [done|]. by exists h, (S k), h', k'.
  Qed.

  Lemma agree_range ord ord' l l' : orders ord → orders ord' → Forall2 agree l l' →
    agree (map_range ord l) (map_range ord' l').
  Proof.
    intros O O' H Hr. destruct (agree_all l l' H (runs_range _ _ _ O H Hr)) as (Ls & F & F').
    exists (concat Ls). split; by apply denotes_range.
  Qed.

  Lemma agree_ext m m' m1 m1' : (∀ h k, skel h = K → m (h, k) = m1 (h, k)) → (∀ h k, skel h = K → m' (h, k) = m1' (h, k)) →
    agree m1 m1' → agree m m'.
  Proof.
    intros E E' H (h & k & h' & k' & Hh & Em). rewrite E in Em by done.
    destruct H as (L & D & D'); [by exists h, k, h', k'|]. exists L. split.
    - intros h0 k0 Hh0. rewrite E by done. by apply D.
    - intros h0 k0 Hh0. rewrite E' by done. by apply D'.
  Qed.

  Context (ord ord' : nat → nat → list nat) (O : orders ord) (O' : orders ord').
  Context (jump jump' : nat → nat → CM) (J : ∀ cur con, agree (jump cur con) (jump' cur con)).

  Lemma agree_target cur t l ti x : agree (visit ord jump cur (CTarget t l ti x)) (visit ord' jump' cur (CTarget t l ti x)).
  Proof.
    change (visit ord' jump' cur (CTarget t l ti x)) with (visit ord jump cur (CTarget t l ti x)).
    intros (h0 & k0 & h0' & k0' & Hh0 & E0). simpl in E0.
    destruct (h0 !! cur) as [s0|] eqn:Es0; [|done].
    assert (denotes (visit ord jump cur (CTarget t l ti x)) [(cur, Tgt t l ti x)]) as D; [|by exists [(cur, Tgt t l ti x)]].
    intros h k Hh. simpl.
    assert (K !! cur = Some (bare s0)) as HK by (by rewrite <- Hh0, skel_lookup, Es0).
    rewrite <- Hh, skel_lookup in HK. destruct (h !! cur) as [s|] eqn:Es; [|done].
    eexists _, _. split; [done|]. unfold upd. rewrite Es. split; [by rewrite insert_length|].
    intros j sj Hj. destruct (decide (j = cur)) as [->|Hn].
    - replace sj with s in * by congruence. rewrite list_lookup_insert by (by eapply lookup_lt_Some).
      exists [tag_of cur (Tgt t l ti x)]. unfold tags_for. rewrite filter_cons_True by done. done.
    - rewrite list_lookup_insert_ne by done. exists []. rewrite app_nil_r, set_tags_id. split; [done|].
      unfold tags_for. rewrite filter_cons_False by (simpl; congruence). done.
  Qed.

  Lemma agree_map {A} (f g : A → CM) l : Forall (λ x, agree (f x) (g x)) l → Forall2 agree (map f l) (map g l).
  Proof. induction 1; simpl; constructor; auto. Qed.

  Lemma agree_visit cur c : agree (visit ord jump cur c) (visit ord' jump' cur c).
  Proof.
    induction c as [s|l IH|l IH|l IH|sec t rc o l IH|c t IH|s|s|st b c ps IH IHps|t l ti x IH1 IH2|p d|l o IH|rows IH|defs IH|b t|c IH]
      using content_ind'; cbn [visit]; try apply agree_skip; try done.
    all: try (by apply agree_cseq, agree_map).
    all: try apply J.
    - apply agree_cseq. constructor; [done|]. constructor; [|constructor]. apply agree_range; [done..|]. apply agree_map.
      eapply Forall_impl; [exact IHps|]. intros [k [v|]] H; [done|apply agree_skip].
    - apply agree_target.
    - apply agree_cseq, agree_map. eapply Forall_impl; [exact IH|]. intros row H. by apply agree_cseq, agree_map.
    - apply agree_cseq, agree_map. eapply Forall_impl; [exact IH|]. intros [s d] [H1 H2]. apply agree_cseq.
      constructor; [done|]. by constructor.
  Qed.

  Lemma agree_section cur con : agree (visit_section ord jump cur con) (visit_section ord' jump' cur con).
  Proof.
    set (act := λ (ord : nat → nat → list nat) (jump : nat → nat → CM), match K !! con with
        | None => cpanic
        | Some x =>
          cseq ([visit ord jump cur (s_title x);
                 visit ord jump cur (s_body x);
                 map_range ord (map (λ p, match snd p with None => cpanic | Some v => visit ord jump cur v end) (s_partials x))]
                ++ map (λ c, jump c c) (s_children x))
        end).
    apply (agree_ext _ _ (act ord jump) (act ord' jump')).
    1,2: intros h k Hh; unfold visit_section, act; simpl; rewrite <- Hh, skel_lookup; by destruct (h !! con).
    unfold act. destruct (K !! con) as [x|]; [|apply agree_panic]. apply agree_cseq. apply Forall2_app.
    - constructor; [apply agree_visit|]. constructor; [apply agree_visit|]. constructor; [|constructor].
      apply agree_range; [done..|]. apply agree_map. apply Forall_forall. intros [k [v|]] _; simpl; [apply agree_visit|apply agree_panic].
    - apply agree_map, Forall_forall. intros c _. apply J.
  Qed.
End agree.

Lemma agree_collect K ord ord' n cur con : orders ord → orders ord' → agree K (collect ord n cur con) (collect ord' n cur con).
Proof.
  intros O O'. revert cur con. induction n as [|n IH]; intros cur con; simpl.
  - by intros (? & ? & ? & ? & ? & ?).
  - by apply agree_section.
Qed.

(** Heaps that differ at most in the order of tags collected in a section. *)
Definition alike (h h' : heap) : Prop :=
  length h' = length h ∧
  ∀ i s, h !! i = Some s → ∃ A B B', s_tags s = A ++ B ∧ h' !! i = Some (set_tags s (A ++ B')) ∧ B ≡ₚ B' ∧
    Forall (λ t, t_section t = Some i) B.

Lemma grown_alike h L h1 h2 : grown h L h1 → grown h L h2 → alike h1 h2.
Proof.
  intros [H1 A1] [H2 A2]. split; [congruence|]. intros i s1 Hs1.
  assert (is_Some (h !! i)) as [s Hs] by (apply lookup_lt_is_Some; rewrite <- H1; by eapply lookup_lt_Some).
  destruct (A1 _ _ Hs) as (B & E1 & P1). destruct (A2 _ _ Hs) as (B' & E2 & P2).
  rewrite E1 in Hs1. injection Hs1 as <-. exists (s_tags s), B, B'. split; [done|]. split; [by rewrite E2|].
  split; [by rewrite P1, P2|]. rewrite P1. unfold tags_for. apply Forall_map, Forall_forall. by intros [a b] _.
Qed.

Lemma collect_alike ord ord' n cur con h k k' h1 k1 : orders ord → orders ord' →
  collect ord n cur con (h, k) = Ok (h1, k1) →
  ∃ h2 k2, collect ord' n cur con (h, k') = Ok (h2, k2) ∧ alike h1 h2.
Proof.
  intros O O' E. destruct (agree_collect (skel h) ord ord' n cur con O O') as (L & D & D'); [by exists h, k, h1, k1|].
  destruct (D h k eq_refl) as (h1' & k1' & E1 & G1). rewrite E in E1. injection E1 as <- <-.
  destruct (D' h k' eq_refl) as (h2 & k2 & E2 & G2). exists h2, k2. split; [done|]. by eapply grown_alike.
Qed.

Lemma load_alike E ord ord' n path fs s s1 r : orders ord → orders ord' →
  load E ord n path fs s = (s1, Ok r) →
  ∃ s2, load E ord' n path fs s = (s2, Ok r) ∧ alike (st_heap s1) (st_heap s2).
Proof.
  intros O O'. unfold load, mbind. destruct (load_file E n path fs s) as [s0 [i|e| |]]; try done.
  unfold run_stages. destruct (collect ord _ i i _) as [[h1 k1]|e| |] eqn:Ec; try done. intros [= <- <-].
  destruct (collect_alike _ _ _ _ _ _ _ 0 _ _ O O' Ec) as (h2 & k2 & -> & HA). by eexists.
Qed.

Lemma load_err_same E ord ord' n path fs s s1 e :
  (∀ n cur con s e, collect ord n cur con s ≠ Err e) →
  load E ord n path fs s = (s1, Err e) → load E ord' n path fs s = (s1, Err e).
Proof.
  intros HN. unfold load, mbind. destruct (load_file E n path fs s) as [s0 [i|e0| |]]; try done.
  unfold run_stages. destruct (collect ord _ i i _) as [[h1 k1]|e1| |] eqn:Ec; try done. by apply HN in Ec.
Qed.
