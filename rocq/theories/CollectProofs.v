(** The collector finds exactly the targets. *)
From Coq Require Import Ascii String.
From stdpp Require Import base tactics relations strings list.
From Verif Require Import GoBase Ast Content Section TreeSpec TreeProofs TagProofs QueryProofs ContentProofs
  Evaluate EvalProofs EvalFrame Collect CollectSpec.

Definition add_tags (i : nat) (ts : list tgt) (s : section) : section :=
  set_tags s (s_tags s ++ map (tag_of i) ts).

Lemma add_tags_nil i s : add_tags i [] s = s.
Proof. unfold add_tags. destruct s; simpl. by rewrite app_nil_r. Qed.
Lemma add_tags_app i a b s : add_tags i b (add_tags i a s) = add_tags i (a ++ b) s.
Proof. unfold add_tags. simpl. by rewrite map_app, app_assoc. Qed.

Lemma upd_id h i f : (∀ s, f s = s) → upd h i f = h.
Proof. intros Hf. unfold upd. destruct (h !! i) as [x|] eqn:Hx; [|done]. rewrite Hf. by apply list_insert_id. Qed.

Lemma upd_upd h i f g : upd (upd h i f) i g = upd h i (λ s, g (f s)).
Proof.
  unfold upd at 2 3. destruct (h !! i) as [x|] eqn:Hx.
  - unfold upd. rewrite list_lookup_insert by (by eapply lookup_lt_Some). by rewrite list_insert_insert.
  - unfold upd. by rewrite Hx.
Qed.

Lemma upd_ext h i f g : (∀ s, f s = g s) → upd h i f = upd h i g.
Proof. intros Hf. unfold upd. destruct (h !! i); [by rewrite Hf|done]. Qed.

Lemma Forall2_perm_l {A B} (P : A → B → Prop) l l' k : Forall2 P l k → l ≡ₚ l' →
  ∃ k', k ≡ₚ k' ∧ Forall2 P l' k'.
Proof.
  intros HF Hp. revert k HF. induction Hp as [|x l l' Hp IH|x y l|l1 l2 l3 H1 IH1 H2 IH2]; intros k HF.
  - inversion HF; subst. exists []. split; [done|constructor].
  - inversion HF as [|? b ? k0 ? HF2]; subst. destruct (IH _ HF2) as (k' & Hk & HF3).
    exists (b :: k'). split; [by constructor|by constructor].
  - inversion HF as [|? b ? k0 ? HF2]; subst. inversion HF2 as [|? c ? k1 ? HF3]; subst.
    exists (c :: b :: k1). split; [by constructor|by repeat constructor].
  - destruct (IH1 _ HF) as (k1 & ? & HF1). destruct (IH2 _ HF1) as (k2 & ? & HF2).
    exists k2. split; [by etrans|done].
Qed.

Section visit.
  Context (ord : nat → nat → list nat) (Hord : ∀ k n, ord k n ≡ₚ seq 0 n).
  Context (jump : nat → nat → CM) (cur : nat).

  (** [m] adds the targets [ts] to section [cur]. *)
  Definition adds (m : CM) (P : list tgt → Prop) : Prop :=
    ∀ h k, valid h cur → ∃ ts k', P ts ∧ m (h, k) = Ok (upd h cur (add_tags cur ts), k').

  Lemma adds_skip (P : list tgt → Prop) : P [] → adds cskip P.
  Proof. intros HP h k Hv. exists [], k. split; [done|]. rewrite upd_id; [done|]. apply add_tags_nil. Qed.

  Lemma cseq_adds (l : list CM) (Ps : list (list tgt → Prop)) :
    Forall2 adds l Ps →
    adds (cseq l) (λ ts, ∃ ls, Forall2 (λ P t, P t) Ps ls ∧ ts = concat ls).
  Proof.
    induction 1 as [|m P l Ps Hm Hl IH]; simpl.
    - apply adds_skip. exists []. split; [constructor|done].
    - intros h k Hv. destruct (Hm h k Hv) as (t1 & k1 & HP & E1). rewrite E1. simpl.
      destruct (IH (upd h cur (add_tags cur t1)) k1) as (t2 & k2 & (ls & HPs & ->) & E2).
      { unfold valid. by rewrite upd_length. }
      exists (t1 ++ concat ls), k2. split.
      + exists (t1 :: ls). split; [by constructor|done].
      + rewrite E2. rewrite upd_upd. do 2 f_equal. apply upd_ext. intros s. apply add_tags_app.
  Qed.

  Lemma omap_perm_seq {A} (l : list A) (is : list nat) : is ≡ₚ seq 0 (length l) →
    omap (λ i, l !! i) is ≡ₚ l.
  Proof.
    intros ->. clear is. apply reflexive_eq. induction l as [|x l IH]; simpl; [done|]. f_equal.
    rewrite <- seq_shift. rewrite <- IH at 2. clear. induction (seq 0 (length l)) as [|i r IH]; [done|].
    simpl. rewrite IH. done.
  Qed.

  Lemma map_range_adds (l : list CM) (Ps : list (list tgt → Prop)) :
    Forall2 adds l Ps →
    adds (map_range ord l) (λ ts, ∃ ls ls', Forall2 (λ P t, P t) Ps ls ∧ ls' ≡ₚ ls ∧ ts = concat ls').
  Proof.
    intros Hl h k Hv. unfold map_range. simpl.
    pose proof (omap_perm_seq l (ord k (length l)) (Hord _ _)) as Hp.
    apply Permutation_sym in Hp.
    destruct (Forall2_perm_l _ _ _ _ Hl Hp) as (Ps' & HPs & Hl').
    destruct (cseq_adds _ _ Hl' h (S k) Hv) as (ts & k' & (ls' & HF & ->) & E).
    exists (concat ls'), k'. split; [|done].
    destruct (Forall2_perm_l _ _ _ _ HF (Permutation_sym HPs)) as (ls & Hls & HF2).
    exists ls, ls'. done.
  Qed.

  Lemma adds_mono m (P Q : list tgt → Prop) : (∀ ts, P ts → Q ts) → adds m P → adds m Q.
  Proof. intros HPQ Hm h k Hv. destruct (Hm h k Hv) as (ts & k' & ? & ?). eauto. Qed.

  Lemma visit_list (l : list content) :
    Forall (λ c, no_sec c = true → adds (visit ord jump cur c) (occ c)) l → forallb no_sec l = true →
    adds (cseq (map (visit ord jump cur) l)) (λ ts, ∃ ls, Forall2 occ l ls ∧ ts = concat ls).
  Proof.
    intros IH Hn. eapply adds_mono; [|apply (cseq_adds _ (map occ l))].
    - simpl. intros ts (ls & HF & ->). exists ls. split; [|done]. by rewrite Forall2_fmap_l in HF.
    - rewrite forallb_forall in Hn. rewrite Forall_forall in IH.
      assert (∀ c, c ∈ l → adds (visit ord jump cur c) (occ c)) as Hall.
      { intros c Hc. apply IH; [done|]. apply Hn. by apply elem_of_list_In. }
      clear Hn IH. induction l as [|c l IH]; simpl; constructor.
      + apply Hall. left.
      + apply IH. intros d Hd. apply Hall. by right.
  Qed.

  Lemma visit_adds c : no_sec c = true → adds (visit ord jump cur c) (occ c).
  Proof.
    induction c as [s|l IH|l IH|l IH|sec t rc o l IH|c t IH|s|s|st b c ps IH IHps|t l ti x IH1 IH2|p d|l o IH|rows IH|defs IH|b t|c IH]
      using content_ind'; simpl; intros Hn.
    - apply adds_skip. constructor.
    - eapply adds_mono; [|by apply visit_list]. intros ts (ls & ? & ->). by constructor.
    - eapply adds_mono; [|by apply visit_list]. intros ts (ls & ? & ->). by constructor.
    - eapply adds_mono; [|by apply visit_list]. intros ts (ls & ? & ->). by constructor.
    - apply adds_skip. constructor.
    - eapply adds_mono; [|by apply IH]. intros. by constructor.
    - done.
    - apply adds_skip. constructor.
    - apply andb_prop in Hn as [Hn Hps].
      set (acts := map (λ p : string * option content,
                     match p with (_, None) => cskip | (_, Some v) => visit ord jump cur v end) ps).
      set (Ps := map (λ p : string * option content, match snd p with None => λ ts, ts = [] | Some v => occ v end) ps).
      assert (Forall2 adds acts Ps) as HF.
      { unfold acts, Ps. clear acts Ps IH. induction IHps as [|[k v] ps Hv Hall IH]; simpl in *; constructor.
        - apply andb_prop in Hps as [Hps _]. destruct v as [v|]; [by apply Hv|]. by apply adds_skip.
        - apply IH. by apply andb_prop in Hps as [_ Hps]. }
      change (adds (cseq [visit ord jump cur c; map_range ord acts]) (occ (CStyled st b c ps))).
      eapply adds_mono; [|apply (cseq_adds _ [occ c;
        λ ts, ∃ ls ls', Forall2 (λ P t, P t) Ps ls ∧ ls' ≡ₚ ls ∧ ts = concat ls'])].
      2: { repeat constructor; [by apply IH|by apply map_range_adds]. }
      simpl. intros ts (ls & HF2 & ->). inversion HF2 as [|? t1 ? ? Hc HF3]; subst.
      inversion HF3 as [|? t2 ? ? Hx HF4]; subst. inversion HF4; subst.
      destruct Hx as (ks & ks' & Hks & Hperm & ->).
      simpl. rewrite app_nil_r.
      (* drop the empty contributions of nil partials *)
      assert (∃ ks2, Forall2 occ (omap snd ps) ks2 ∧ ∃ e, ks ≡ₚ e ++ ks2 ∧ Forall (λ x, x = []) e) as
        (ks2 & Hk2 & e & He & Hem).
      { unfold Ps in Hks. clear -Hks. revert ks Hks. induction ps as [|[k v] ps IH]; intros ks Hks; simpl in *.
        - inversion Hks; subst. exists []. split; [constructor|]. exists []. split; [done|constructor].
        - inversion Hks as [|? t ? ks0 Ht Hr]; subst. destruct (IH ks0 Hr) as (k2 & H2 & e & He & Hem).
          destruct v as [v|]; simpl in *.
          + exists (t :: k2). split; [by constructor|]. exists e. split; [|done]. rewrite He. apply Permutation_middle.
          + subst t. exists k2. split; [done|]. exists ([] :: e). split; [by rewrite He|by constructor]. }
      assert (∃ ks3, ks3 ≡ₚ ks2 ∧ concat ks3 = concat ks') as (ks3 & Hp3 & <-).
      { rewrite He in Hperm. clear -Hperm Hem.
        assert (∀ e k2 l, l ≡ₚ e ++ k2 → Forall (λ x : list tgt, x = []) e →
          ∃ k3, k3 ≡ₚ k2 ∧ concat k3 = concat l) as Hgo.
        { clear. induction e as [|x e IH]; intros k2 l Hl Hem; simpl in *; [eauto|].
          inversion Hem; subst.
          destruct (elem_of_list_split l []) as (l1 & l2 & ->).
          { rewrite Hl. left. }
          rewrite <- Permutation_middle in Hl. apply Permutation_cons_inv in Hl.
          destruct (IH k2 (l1 ++ l2)) as (k3 & ? & Hc); [done|done|]. exists k3. split; [done|].
          rewrite Hc, !concat_app. done. }
        by eapply Hgo. }
      by eapply occ_styled.
    - intros h k Hv. exists [Tgt t l ti x], k. split; [constructor|]. simpl.
      assert (is_Some (h !! cur)) as [y Hy] by by apply lookup_lt_is_Some_2. rewrite Hy. do 2 f_equal.
    - apply adds_skip. constructor.
    - eapply adds_mono; [|by apply visit_list]. intros ts (ls & ? & ->). by constructor.
    - eapply adds_mono; [|apply (cseq_adds _ (map (λ row ts, ∃ ls, Forall2 occ row ls ∧ ts = concat ls) rows))].
      + simpl. intros ts (ls & HF & ->). rewrite Forall2_fmap_l in HF.
        assert (∃ lss, Forall2 (Forall2 occ) rows lss ∧ ls = map (@concat tgt) lss) as (lss & Hl & ->).
        { clear -HF. induction HF as [|r l rows ls (k & Hk & ->) _ (lss & H1 & ->)]; [exists []; split; [constructor|done]|].
          exists (k :: lss). split; [by constructor|done]. }
        by constructor.
      + induction IH as [|r rows Hr _ IH']; simpl in *; constructor.
        * apply visit_list; [done|]. by apply andb_prop in Hn as [? _].
        * apply IH'. by apply andb_prop in Hn as [_ ?].
    - eapply adds_mono; [|apply (cseq_adds _ (map (λ p ts, ∃ a b, occ (fst p) a ∧ occ (snd p) b ∧ ts = a ++ b) defs))].
      + simpl. intros ts (ls & HF & ->). rewrite Forall2_fmap_l in HF.
        assert (∃ lss, Forall2 (λ p q, occ (fst p) (fst q) ∧ occ (snd p) (snd q)) defs lss ∧
          ls = map (λ q, fst q ++ snd q) lss) as (lss & Hl & ->).
        { clear -HF. induction HF as [|p l defs ls (a & b & Ha & Hb & ->) _ (lss & H1 & ->)];
            [exists []; split; [constructor|done]|].
          exists ((a, b) :: lss). split; [by constructor|done]. }
        by constructor.
      + induction IH as [|[s d] defs [Hs Hd] _ IH']; simpl in *; constructor.
        * apply andb_prop in Hn as [[? ?]%andb_prop _].
          eapply adds_mono; [|apply (cseq_adds [visit ord jump cur s; visit ord jump cur d] [occ s; occ d])].
          2: { repeat constructor; [by apply Hs|by apply Hd]. }
          simpl. intros ts (ls & HF & ->). inversion HF as [|? t1 ? ? ? HF2]; subst.
          inversion HF2 as [|? t2 ? ? ? HF3]; subst. inversion HF3; subst.
          exists t1, t2. simpl. by rewrite app_nil_r.
        * apply IH'. by apply andb_prop in Hn as [_ ?].
    - apply adds_skip. constructor.
    - eapply adds_mono; [|by apply IH]. intros. by constructor.
  Qed.
End visit.

(** ** Sections *)

Lemma section_adds ord jump cur x (Hord : ∀ k n, ord k n ≡ₚ seq 0 n) : plain x →
  adds cur (cseq [visit ord jump cur (s_title x); visit ord jump cur (s_body x);
     map_range ord (map (λ p, match snd p with None => cpanic | Some v => visit ord jump cur v end) (s_partials x))])
    (section_occ x).
Proof.
  intros (Ht & Hb & Hp).
  set (acts := map (λ p : string * option content,
    match snd p with None => cpanic | Some v => visit ord jump cur v end) (s_partials x)).
  assert (Forall2 (adds cur) acts (map occ (omap snd (s_partials x)))) as HF.
  { unfold acts. clear acts. induction Hp as [|[k v] ps (y & Hv & Hy) _ IH]; simpl in *; [constructor|].
    subst v. simpl. constructor; [by apply visit_adds|done]. }
  eapply adds_mono; [|apply (cseq_adds cur _ [occ (s_title x); occ (s_body x);
    λ ts, ∃ ls ls', Forall2 (λ P t, P t) (map occ (omap snd (s_partials x))) ls ∧ ls' ≡ₚ ls ∧ ts = concat ls'])].
  2: { repeat constructor; [by apply visit_adds..|by apply map_range_adds]. }
  simpl. intros ts (ls & HF2 & ->).
  inversion HF2 as [|? t1 ? ? H1 HF3]; subst. inversion HF3 as [|? t2 ? ? H2 HF4]; subst.
  inversion HF4 as [|? t3 ? ? H3 HF5]; subst. inversion HF5; subst.
  destruct H3 as (ks & ks' & Hks & Hperm & ->). rewrite Forall2_fmap_l in Hks.
  exists t1, t2, ks, ks'. simpl. by rewrite app_nil_r.
Qed.

(** [h'] is [h] with some tags added. *)
Definition shape (h h' : heap) : Prop :=
  length h' = length h ∧ ∀ j s, h !! j = Some s → ∃ ts, h' !! j = Some (add_tags j ts s).

(** [h'] is [h] with the targets of the sections in [D] added. *)
Definition collected (D : nat → Prop) (h h' : heap) : Prop :=
  length h' = length h ∧
  ∀ j s, h !! j = Some s → ∃ ts, h' !! j = Some (add_tags j ts s) ∧
    (D j → section_occ s ts) ∧ (¬ D j → ts = []).

Lemma collected_shape D h h' : collected D h h' → shape h h'.
Proof. intros [Hl H]. split; [done|]. intros j s Hs. destruct (H _ _ Hs) as (ts & ? & _). eauto. Qed.

Lemma shape_refl h : shape h h.
Proof. split; [done|]. intros j s Hs. exists []. by rewrite add_tags_nil. Qed.

Lemma shape_trans h1 h2 h3 : shape h1 h2 → shape h2 h3 → shape h1 h3.
Proof.
  intros [Hl1 H1] [Hl2 H2]. split; [congruence|]. intros j s Hs.
  destruct (H1 _ _ Hs) as (t1 & E1). destruct (H2 _ _ E1) as (t2 & E2). rewrite E2, add_tags_app. eauto.
Qed.

Lemma shape_inv h h' j s' : shape h h' → h' !! j = Some s' → ∃ s ts, h !! j = Some s ∧ s' = add_tags j ts s.
Proof.
  intros [Hl H] Hs'. assert (is_Some (h !! j)) as [x Hx].
  { apply lookup_lt_is_Some_2. rewrite <- Hl. by eapply lookup_lt_Some. }
  destruct (H _ _ Hx) as (ts & E). exists x, ts. split; [done|congruence].
Qed.

Lemma collected_none (D : nat → Prop) h : (∀ j, ¬ D j) → collected D h h.
Proof.
  intros HD. split; [done|]. intros j s Hs. exists []. rewrite add_tags_nil. split; [done|]. split; [|done].
  intros Hj. by apply HD in Hj.
Qed.

Lemma collected_trans (D1 D2 : nat → Prop) h1 h2 h3 : (∀ j, D1 j → D2 j → False) →
  collected D1 h1 h2 → collected D2 h2 h3 → collected (λ j, D1 j ∨ D2 j) h1 h3.
Proof.
  intros Hdis [Hl1 H1] [Hl2 H2]. split; [congruence|]. intros j s Hs.
  destruct (H1 _ _ Hs) as (t1 & E1 & A1 & B1). destruct (H2 _ _ E1) as (t2 & E2 & A2 & B2).
  exists (t1 ++ t2). rewrite E2, add_tags_app. split; [done|].
  change (D2 j → section_occ s t2) in A2. split.
  - intros [HD|HD].
    + rewrite (B2 (Hdis j HD)), app_nil_r. by apply A1.
    + rewrite B1; [by apply A2|]. intros HD1. by eapply Hdis.
  - intros Hn. rewrite B1, B2 by tauto. done.
Qed.

Lemma collected_ext (D D' : nat → Prop) h h' : (∀ j, D j ↔ D' j) → collected D h h' → collected D' h h'.
Proof.
  intros HD [Hl H]. split; [done|]. intros j s Hs. destruct (H _ _ Hs) as (ts & ? & ? & ?).
  exists ts. rewrite <- HD. done.
Qed.

Lemma shape_child h h' p c : shape h h' → child_of h p c ↔ child_of h' p c.
Proof.
  intros HS. split; intros (s & Hs & Hc).
  - destruct (proj2 HS _ _ Hs) as (ts & E). by exists (add_tags p ts s).
  - destruct (shape_inv _ _ _ _ HS Hs) as (x & ts & Hx & ->). by exists x.
Qed.

Lemma shape_desc h h' i j : shape h h' → descendant h i j ↔ descendant h' i j.
Proof.
  intros HC. unfold descendant. split; intros Hr.
  - induction Hr as [|x y z Hxy _ IH]; [done|]. eapply rtc_l; [|done]. by rewrite <- shape_child.
  - induction Hr as [|x y z Hxy _ IH]; [done|]. eapply rtc_l; [|done]. by rewrite shape_child.
Qed.

Lemma shape_wf h h' : shape h h' → wf h → wf h'.
Proof.
  intros HS [Hp Hc Hd]. constructor.
  - intros i s' p (s & ts & Hs & ->)%(shape_inv _ _ _ _ HS) Hpar. by eapply Hp.
  - intros p s' c (s & ts & Hs & ->)%(shape_inv _ _ _ _ HS) Hin. destruct (Hc _ _ _ Hs Hin) as (cs & Hcs & ?).
    destruct (proj2 HS _ _ Hcs) as (us & E). by exists (add_tags c us cs).
  - intros p s' (s & ts & Hs & ->)%(shape_inv _ _ _ _ HS). exact (Hd _ _ Hs).
Qed.

Lemma shape_owned h h' : shape h h' → tags_owned h → tags_owned h'.
Proof.
  intros HS Ho j s' t (s & ts & Hs & ->)%(shape_inv _ _ _ _ HS) Ht. simpl in Ht.
  apply elem_of_app in Ht as [Ht|Ht]; [by eapply Ho|].
  apply elem_of_list_fmap in Ht as (u & -> & _). done.
Qed.

Lemma shape_plain (n : nat) h h' : shape h h' → (∀ j s, n ≤ j → h !! j = Some s → plain s) →
  ∀ j s, n ≤ j → h' !! j = Some s → plain s.
Proof. intros HS Hpl j s' Hj (s & ts & Hs & ->)%(shape_inv _ _ _ _ HS). by apply (Hpl j s). Qed.

Lemma collect_tree ord n h k i (Hord : ∀ k n, ord k n ≡ₚ seq 0 n) : wf h → valid h i →
  length h - i < n → (∀ j s, i ≤ j → h !! j = Some s → plain s) →
  ∃ h' k', collect ord n i i (h, k) = Ok (h', k') ∧ collected (descendant h i) h h'.
Proof.
  revert h k i. induction n as [|n IH]; intros h k i Hw Hv Hn Hpl; [lia|].
  assert (is_Some (h !! i)) as [x Hx] by by apply lookup_lt_is_Some_2.
  pose proof (Hpl _ _ (le_n _) Hx) as Hpx.
  destruct (section_adds ord (collect ord n) i x Hord Hpx h k Hv) as (ts & k1 & Hocc & E).
  set (h1 := upd h i (add_tags i ts)) in *.
  assert (collected (eq i) h h1) as HC1.
  { split; [apply upd_length|]. intros j s Hs. unfold h1. rewrite upd_lookup. destruct (decide (i = j)) as [<-|Hne].
    - rewrite Hs. exists ts. split; [done|]. assert (s = x) as -> by congruence. split; [done|]. by intros [].
    - exists []. rewrite add_tags_nil. done. }
  assert (∀ cs h1 k1, (∀ j s, i ≤ j → h1 !! j = Some s → plain s) → wf h1 → shape h h1 →
    (∀ c, c ∈ cs → child_of h i c) → NoDup cs →
    ∃ h2 k2, cseq (map (λ c, collect ord n c c) cs) (h1, k1) = Ok (h2, k2) ∧
      collected (λ j, ∃ c, c ∈ cs ∧ descendant h c j) h1 h2) as Hloop.
  { clear - IH Hw Hn Hv. induction cs as [|c cs IHcs]; intros h2 k2 Hpl2 Hw2 HC2 Hch Hnd; simpl.
    - exists h2, k2. split; [done|]. apply collected_none. intros j (c & Hc & _). by apply elem_of_nil in Hc.
    - inversion Hnd as [|? ? Hnin Hnd2]; subst.
      assert (child_of h i c) as Hic by (apply Hch; left).
      assert (valid h2 c) as Hvc.
      { unfold valid. rewrite (proj1 HC2). by eapply wf_child_valid. }
      pose proof (wf_child_lt _ _ _ Hw Hic) as Hlt.
      assert (length h2 = length h) as Hl2 by apply HC2.
      destruct (IH h2 k2 c Hw2 Hvc) as (h3 & k3 & E3 & HC3); [unfold valid in *; lia|intros j s Hj; apply Hpl2; lia|].
      rewrite E3. simpl.
      assert (collected (descendant h c) h2 h3) as HC3'.
      { eapply collected_ext; [|done]. intros j. symmetry. by apply shape_desc. }
      destruct (IHcs h3 k3) as (h4 & k4 & E4 & HC4).
      + eapply shape_plain; [by eapply collected_shape|done].
      + eapply shape_wf; [by eapply collected_shape|done].
      + eapply shape_trans; [done|]. by eapply collected_shape.
      + intros d Hd. apply Hch. by right.
      + done.
      + exists h4, k4. split; [done|].
        eapply collected_ext; [|eapply collected_trans; [|exact HC3'|exact HC4]].
        * intros j. split.
          -- intros [Hd|(d & Hd & Hdj)]; [exists c; split; [left|done]|exists d; split; [by right|done]].
          -- intros (d & Hd & Hdj). apply elem_of_cons in Hd as [->|Hd]; [by left|right; eauto].
        * intros j Hj (d & Hd & Hdj). simpl in *.
          eapply (sibling_disjoint h i c d j); try done; [apply Hch; by right|]. by intros ->. }
  destruct (Hloop (s_children x) h1 k1) as (h2 & k2 & E2 & HC2).
  { eapply shape_plain; [by eapply collected_shape|done]. }
  { eapply shape_wf; [by eapply collected_shape|done]. }
  { by eapply collected_shape. }
  { intros c Hc. by exists x. }
  { by eapply wf_nodup. }
  exists h2, k2. split.
  - cbn [collect]. unfold visit_section. cbn [fst]. rewrite Hx.
    assert (∀ (l1 l2 : list CM) s, cseq (l1 ++ l2) s = obind (cseq l2) (cseq l1 s)) as Happ.
    { clear. induction l1 as [|m l1 IH]; intros l2 s; simpl; [done|].
      destruct (m s); simpl; [apply IH|done..]. }
    rewrite Happ, E. exact E2.
  - eapply collected_ext; [|eapply collected_trans; [|exact HC1|exact HC2]].
    + intros j. split.
      * intros [<-|(c & Hc & Hd)]; [apply rtc_refl|]. eapply rtc_l; [|done]. by exists x.
      * intros Hd. apply rtc_inv in Hd as [->|(c & (y & Hy & Hc) & Hd)]; [by left|].
        right. exists c. split; [|done]. congruence.
    + intros j <- (c & Hc & Hd). eapply (child_not_desc_self h i c); [done|by exists x|done].
Qed.
