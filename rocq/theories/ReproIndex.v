(** The search index of heaps that are alike. *)
From Coq Require Import Ascii String Sorted Lia.
From stdpp Require Import base tactics relations strings list sorting.
From Verif Require Import GoBase Ast Content Section Render Json JsonSpec JsonProofs Evaluate Collect CollectSpec Html ReproSpec Repro ReproRead.

Lemma assoc_set_keys {V} k (v : V) m x : x ∈ map fst (assoc_set k v m) ↔ x = k ∨ x ∈ map fst m.
Proof.
  induction m as [|[k' v'] m IH]; simpl; [set_solver|]. destruct (String.eqb_spec k' k) as [->|]; simpl; set_solver.
Qed.
Lemma assoc_set_nodup {V} k (v : V) m : NoDup (map fst m) → NoDup (map fst (assoc_set k v m)).
Proof.
  induction m as [|[k' v'] m IH]; simpl; intros N; [repeat constructor; set_solver|]. apply NoDup_cons in N as [N1 N2].
  destruct (String.eqb_spec k' k) as [->|]; simpl; constructor; auto. rewrite assoc_set_keys. by intros [?|?].
Qed.
(** Setting a key in a map without double keys is replacing its entry. *)
Lemma assoc_set_perm_shape {V} k (v : V) m : NoDup (map fst m) →
  assoc_set k v m ≡ₚ (k, v) :: filter (λ e, fst e ≠ k) m.
Proof.
  induction m as [|[k' v'] m IH]; simpl; intros N; [done|]. apply NoDup_cons in N as [N1 N2].
  destruct (String.eqb_spec k' k) as [->|Ne].
  - rewrite filter_cons_False by (simpl; auto). constructor. apply reflexive_eq.
    clear IH N2. induction m as [|[k' v''] m IH]; [done|]. rewrite filter_cons_True by (simpl; set_solver).
    f_equal. apply IH. set_solver.
  - rewrite filter_cons_True by done. rewrite IH by done. apply perm_swap.
Qed.
Lemma assoc_set_perm {V} k (v : V) m m' : NoDup (map fst m) → m ≡ₚ m' → assoc_set k v m ≡ₚ assoc_set k v m'.
Proof.
  intros N P. assert (NoDup (map fst m')) by (by rewrite <- P). rewrite !assoc_set_perm_shape by done. by rewrite P.
Qed.
Lemma assoc_set_comm {V} k1 (v1 : V) k2 v2 m : NoDup (map fst m) → k1 ≠ k2 →
  assoc_set k1 v1 (assoc_set k2 v2 m) ≡ₚ assoc_set k2 v2 (assoc_set k1 v1 m).
Proof.
  intros N Ne. rewrite (assoc_set_perm_shape k1 v1 (assoc_set k2 v2 m)) by (by apply assoc_set_nodup).
  rewrite (assoc_set_perm_shape k2 v2 (assoc_set k1 v1 m)) by (by apply assoc_set_nodup).
  rewrite (assoc_set_perm_shape k2 v2 m), (assoc_set_perm_shape k1 v1 m) by done.
  rewrite !filter_cons_True by (simpl; auto). rewrite perm_swap. do 2 constructor. apply reflexive_eq.
  rewrite !list_filter_filter. apply list_filter_iff. tauto.
Qed.

Lemma key_sort_unique l l' : NoDup (map fst l) → l ≡ₚ l' → key_sort l = key_sort l'.
Proof.
  intros N P. assert (NoDup (map fst l')) as N' by (by rewrite <- P).
  assert (AntiSymm (=) (λ x y : string * search_doc, string_ltb (fst x) (fst y) = true)).
  { intros x y H1 H2. exfalso. pose proof (string_ltb_trans _ _ _ H1 H2) as H. clear -H.
    induction (fst x) as [|a s IH]; [done|]. cbn [string_ltb] in H. rewrite N.ltb_irrefl, Ascii.eqb_refl in H. auto. }
  apply (StronglySorted_unique (λ x y : string * search_doc, string_ltb (fst x) (fst y) = true));
    [by apply key_sort_ordered|by apply key_sort_ordered|by rewrite !key_sort_perm].
Qed.

Definition index := list (string * search_doc).
Inductive isame : outcome error index → outcome error index → Prop :=
| isame_ok l l' : NoDup (map fst l) → l ≡ₚ l' → isame (Ok l) (Ok l')
| isame_gone o o' : gone o → gone o' → isame o o'.

Lemma isame_bind o o' f f' : isame o o' → (∀ l l', NoDup (map fst l) → l ≡ₚ l' → isame (f l) (f' l')) →
  isame (obind f o) (obind f' o').
Proof.
  intros [l l' N P|x y Hx Hy] Hf; simpl; [by apply Hf|]. constructor 2; [by destruct x|by destruct y].
Qed.
Lemma isame_trans a b c : isame a b → isame b c → isame a c.
Proof.
  intros [l l' N P|x y Hx Hy] H; inversion H as [k k' Nk Pk|u v Hu Hv]; subst; try done.
  - constructor; [done|]. by rewrite P.
  - by constructor 2.
Qed.

Section index.
  Context (str : content → outcome error string) (Hn : ∀ c e, str c ≠ Err e) (h : heap) (ext : string).

  Lemma tag_doc_end t : (∃ d, tag_doc str h ext t = Ok d) ∨ gone (tag_doc str h ext t).
  Proof.
    unfold tag_doc. destruct (t_section t) as [ts|]; [|by right]. destruct (h !! ts) as [sec|]; [|by right].
    destruct (str _) as [x|e| |] eqn:E; simpl; [|by apply Hn in E|by right..].
    destruct (tag_url h ext t); [|by right]. destruct (t_title t) as [c|]; [|by right]. destruct (depth h ts); [|by right].
    destruct (str c) as [y|e| |] eqn:E'; simpl; [by left; eexists|by apply Hn in E'|by right..].
  Qed.

  Lemma index_tags_idx ts : ∀ idx idx', NoDup (map fst idx) → idx ≡ₚ idx' →
    isame (index_tags str h ext ts idx) (index_tags str h ext ts idx').
  Proof.
    induction ts as [|t ts IH]; intros idx idx' N P; simpl; [by constructor|].
    destruct (tag_doc_end t) as [[d ->]|G]; simpl.
    - apply IH; [by apply assoc_set_nodup|by apply assoc_set_perm].
    - constructor 2; by destruct (tag_doc str h ext t).
  Qed.

  Lemma index_tags_perm ts ts' : ts ≡ₚ ts' → NoDup (map t_name ts) → ∀ idx idx', NoDup (map fst idx) → idx ≡ₚ idx' →
    isame (index_tags str h ext ts idx) (index_tags str h ext ts' idx').
  Proof.
    induction 1 as [|x l l' H IH|x y l|l1 l2 l3 H1 IH1 H2 IH2]; intros Nt idx idx' N P; simpl.
    - by constructor.
    - apply NoDup_cons in Nt as [_ Nt]. destruct (tag_doc_end x) as [[d ->]|G]; simpl.
      + apply IH; [done|by apply assoc_set_nodup|by apply assoc_set_perm].
      + constructor 2; by destruct (tag_doc str h ext x).
    - destruct (tag_doc_end x) as [[dx ->]|Gx], (tag_doc_end y) as [[dy ->]|Gy]; simpl.
      + apply index_tags_idx; [by do 2 apply assoc_set_nodup|].
        simpl in Nt. apply NoDup_cons in Nt as [Nt _]. rewrite assoc_set_comm; [|done|intros Eq; apply Nt; first [rewrite Eq|rewrite <- Eq]; left].
        apply assoc_set_perm; [by apply assoc_set_nodup|]. by apply assoc_set_perm.
      + constructor 2; by destruct (tag_doc str h ext y).
      + constructor 2; by destruct (tag_doc str h ext x).
      + constructor 2; [by destruct (tag_doc str h ext y)|by destruct (tag_doc str h ext x)].
    - eapply isame_trans; [by apply (IH1 Nt idx idx)|]. apply IH2; [by rewrite <- H1|done|done].
  Qed.
End index.

Section alike.
  Context (h h' : heap) (HA : alike h h') (ext : string).
  Context (str str' : content → outcome error string) (Hstr : ∀ c, str c = str' c) (Hn : ∀ c e, str c ≠ Err e).

  Lemma tag_doc_alike t : tag_doc str' h' ext t = tag_doc str h ext t.
  Proof.
    unfold tag_doc. destruct (t_section t) as [ts|]; [|done].
    destruct (lookup_alike h h' HA ts) as [|s s' (_ & Es & _)]; [done|]. rewrite Es. simpl.
    rewrite (tag_url_alike h h' HA), (depth_alike h h' HA), <- Hstr. destruct (str _); simpl; [|done..].
    destruct (tag_url h ext t); [|done]. destruct (t_title t); [|done]. destruct (depth h ts); [|done]. by rewrite Hstr.
  Qed.
  Lemma index_tags_alike ts idx : index_tags str' h' ext ts idx = index_tags str h ext ts idx.
  Proof.
    revert idx. induction ts as [|t ts IH]; intros idx; simpl; [done|]. rewrite tag_doc_alike.
    destruct (tag_doc str h ext t); simpl; [apply IH|done..].
  Qed.

  (** Whatever the names, both indexes are made or none. *)
  Inductive ksame : outcome error index → outcome error index → Prop :=
  | ksame_ok l l' : ksame (Ok l) (Ok l')
  | ksame_gone o o' : gone o → gone o' → ksame o o'.

  Lemma index_tags_kind ts ts' : ts ≡ₚ ts' → ∀ idx idx', ksame (index_tags str h ext ts idx) (index_tags str h ext ts' idx').
  Proof.
    assert (∀ ts idx, (∃ l, index_tags str h ext ts idx = Ok l) ∧ Forall (λ t, ∃ d, tag_doc str h ext t = Ok d) ts ∨
      gone (index_tags str h ext ts idx) ∧ ¬ Forall (λ t, ∃ d, tag_doc str h ext t = Ok d) ts) as H.
    { induction ts0 as [|t ts0 IH]; intros idx; simpl; [left; split; [by eexists|constructor]|].
      destruct (tag_doc_end str Hn h ext t) as [[d E]|G].
      - rewrite E. simpl. destruct (IH (assoc_set (t_name t) d idx)) as [[? ?]|[? Nf]]; [left|right]; (split; [done|]).
        + constructor; [by exists d|done].
        + intros F. by inversion F.
      - right. split; [by destruct (tag_doc str h ext t)|]. intros F. inversion F as [|? ? [d E] _]; subst. by rewrite E in G. }
    intros P idx idx'. destruct (H ts idx) as [[[l ->] F]|[G F]], (H ts' idx') as [[[l' ->] F']|[G' F']].
    - constructor.
    - by rewrite P in F.
    - by rewrite P in F.
    - by constructor 2.
  Qed.
  Lemma load_tags_kind n i : ∀ idx idx', ksame (load_tags n str h ext i idx) (load_tags n str' h' ext i idx').
  Proof.
    assert (∀ o o' f f', ksame o o' → (∀ l l', ksame (f l) (f' l')) → ksame (obind f o) (obind f' o')) as HB.
    { intros o o' f f' [l l'|x y Hx Hy] Hf; simpl; [by apply Hf|]. constructor 2; [by destruct x|by destruct y]. }
    revert i. induction n as [|n IH]; intros i idx idx'; simpl; [by constructor 2|].
    destruct (lookup_alike h h' HA i) as [|s s' ([Pt _] & Es & _)]; [by constructor 2|].
    assert (s_children s' = s_children s) as -> by (by rewrite Es). apply HB.
    - rewrite index_tags_alike. by apply index_tags_kind.
    - induction (s_children s) as [|c r IHr]; intros l l'; [by constructor|]. by apply HB.
  Qed.
  Lemma write_index_kind short open_ok i path fs :
    (∃ x y, write_search_index short str h open_ok ext i path fs = Ok (assoc_set path x fs) ∧
       write_search_index short str' h' open_ok ext i path fs = Ok (assoc_set path y fs)) ∨
    (∃ e, write_search_index short str h open_ok ext i path fs = Err e ∧
       write_search_index short str' h' open_ok ext i path fs = Err e) ∨
    gone (write_search_index short str h open_ok ext i path fs) ∧ gone (write_search_index short str' h' open_ok ext i path fs).
  Proof.
    unfold write_search_index, search_index, fuel_of. rewrite (proj1 HA).
    destruct (load_tags_kind (S (length h)) i [] []) as [l l'|o o' G G']; simpl.
    - destruct (open_ok path); [left; eauto|right; left; eauto].
    - right. right. by destruct o, o'.
  Qed.

  Context (Hd : ∀ i s, h !! i = Some s → NoDup (map t_name (s_tags s))).

  Lemma load_tags_alike n i : ∀ idx idx', NoDup (map fst idx) → idx ≡ₚ idx' →
    isame (load_tags n str h ext i idx) (load_tags n str' h' ext i idx').
  Proof.
    revert i. induction n as [|n IH]; intros i idx idx' N P; simpl; [by constructor 2|].
    specialize (Hd i). destruct (lookup_alike h h' HA i) as [|s s' ([Pt _] & Es & _)]; [by constructor 2|].
    assert (s_children s' = s_children s) as -> by (by rewrite Es). apply isame_bind.
    - rewrite index_tags_alike. by apply index_tags_perm; auto.
    - induction (s_children s) as [|c r IHr]; intros l l' Nl Pl; [by constructor|]. apply isame_bind; [by apply IH|done].
  Qed.

  Lemma write_index_alike short open_ok i path fs :
    same_end same_error (write_search_index short str h open_ok ext i path fs)
      (write_search_index short str' h' open_ok ext i path fs).
  Proof.
    unfold write_search_index, search_index, fuel_of. rewrite (proj1 HA).
    destruct (load_tags_alike (S (length h)) i [] [] ltac:(constructor) (reflexivity _)) as [l l' N P|o o' G G']; simpl.
    - unfold json_index. rewrite (key_sort_unique _ _ N P). destruct (open_ok path); constructor. constructor.
    - constructor 3; [by destruct o|by destruct o'].
  Qed.
End alike.
