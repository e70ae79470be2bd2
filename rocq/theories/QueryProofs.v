(** C13, C14, C15, C17: consequences for tag lookup, references, navigation. *)
From Coq Require Import Ascii String Lia.
From stdpp Require Import base list strings relations tactics.
From Verif Require Import GoBase Ast Content Section RefCache Render TreeSpec TreeProofs TagProofs NavProofs.

(** ** C13 *)

(** [ts] is, up to order, all tags with a name accepted by [m] in the scope of
    [i], those of each section once. *)
Definition all_tags (h : heap) (i : nat) (m : string → bool) (ts : list tag) : Prop :=
  ∃ ids, NoDup ids ∧ (∀ x, x ∈ ids ↔ in_scope h i x) ∧ ts ≡ₚ flat_map (tags_at h m) ids.

Lemma filter_tags_all h m i : wf h → valid h i →
  ∃ ts, filter_tags h m i = Some ts ∧ all_tags h i m ts.
Proof.
  intros W V. destruct (filter_up h m (2 * fuel_of h) i None W V) as (ids & Hnd & Hin & E).
  - unfold fuel_of, valid in *. lia.
  - done.
  - exists (flat_map (tags_at h m) ids). split; [done|]. exists ids. split_and!; [done| |done].
    intros x. rewrite Hin. split; [by intros [? _]|]. intros H. split; [done|]. intros e [=].
Qed.

Lemma in_scope_valid h i x : wf h → valid h i → in_scope h i x → valid h x.
Proof.
  intros W V (a & A & D). eapply descendant_valid; [done| |done].
  apply ancestor_le in A; [|done]. unfold valid in *. lia.
Qed.

Lemma in_scope_tree h r i x : wf h → is_top h r → descendant h r i →
  in_scope h i x ↔ descendant h r x.
Proof.
  intros W T D. split.
  - intros (a & A & Dx). destruct (ancestor_descendant _ _ _ _ W T D A) as [Da _].
    by etrans.
  - intros Dx. exists r. split; [by apply descendant_ancestor|done].
Qed.

Lemma NoDup_perm_ids (l1 l2 : list nat) : NoDup l1 → NoDup l2 → (∀ x, x ∈ l1 ↔ x ∈ l2) → l1 ≡ₚ l2.
Proof. intros. by apply NoDup_Permutation. Qed.

Lemma flat_map_perm {A B} (f : A → list B) l1 l2 : l1 ≡ₚ l2 → flat_map f l1 ≡ₚ flat_map f l2.
Proof. intros H. by apply Permutation_flat_map. Qed.

Lemma all_tags_perm h i j m ts ts' : (∀ x, in_scope h i x ↔ in_scope h j x) →
  all_tags h i m ts → all_tags h j m ts' → ts ≡ₚ ts'.
Proof.
  intros Hs (ids & N & I & ->) (ids' & N' & I' & ->). apply flat_map_perm, NoDup_perm_ids; try done.
  intros x. by rewrite I, I', Hs.
Qed.

Lemma all_tags_elem h i m ts t : all_tags h i m ts →
  t ∈ ts ↔ ∃ x s, in_scope h i x ∧ h !! x = Some s ∧ t ∈ s_tags s ∧ m (t_name t) = true.
Proof.
  intros (ids & N & I & P). rewrite P, elem_of_list_In, in_flat_map. split.
  - intros (x & Hx & Ht). apply elem_of_list_In, I in Hx. unfold tags_at in Ht.
    destruct (h !! x) as [s|] eqn:E; [|done]. apply filter_In in Ht as [Ht Hm].
    apply elem_of_list_In in Ht. eauto 10.
  - intros (x & s & Hx & E & Ht & Hm). exists x. split; [by apply elem_of_list_In, I|].
    unfold tags_at. rewrite E. apply filter_In. split; [by apply elem_of_list_In|done].
Qed.

(** The whole tree below [r], as one list of tags: the tags of every section,
    the sections in depth-first order. *)
Lemma filter_tags_tree h r i m l : wf h → is_top h r → descendant h r i →
  listing h (λ _, true) r l →
  ∃ ts, filter_tags h m i = Some ts ∧ ts ≡ₚ flat_map (tags_at h m) l.
Proof.
  intros W T D L. assert (valid h r) as Vr by (destruct T as (s & Hs & _); by eapply lookup_lt_Some).
  assert (valid h i) as V by by eapply descendant_valid.
  destruct (filter_tags_all h m i W V) as (ts & E & ids & N & I & P). exists ts. split; [done|].
  rewrite P. apply flat_map_perm, NoDup_perm_ids; [done|by eapply listing_nodup|].
  intros x. rewrite I, (in_scope_tree _ _ _ _ W T D), (listing_elem _ _ _ _ _ L).
  by rewrite edge_all_descendant.
Qed.

(** ** C14 *)

(** Every tag records the section that holds it (SetTag, SetTagAnchored). *)
Definition tags_owned (h : heap) : Prop :=
  ∀ x s t, h !! x = Some s → t ∈ s_tags s → t_section t = Some x.

Lemma file_path_total h i : wf h → valid h i → ∃ f, file_path h i = Some f.
Proof. intros W V. destruct (file_path_spec h i W V) as (f & ? & _). eauto. Qed.

Definition defined_at (h : heap) (t : tag) (l : errloc) : Prop :=
  el_loc l = t_loc t ∧ ∃ x, t_section t = Some x ∧ file_path h x = Some (el_file l).

Lemma resolve_spec similar h sec name opt l defs : wf h → valid h sec → tags_owned h →
  all_tags h sec (λ n, String.eqb n name) defs →
  (∀ t, defs = [t] → resolve similar h sec name opt l = Ok (Some t)) ∧
  (defs = [] →
     if opt then resolve similar h sec name opt l = Ok None
     else ∃ f sim, resolve similar h sec name opt l = Err (EUnknownTag name sim (ErrLoc f l 10)) ∧
          file_path h sec = Some f ∧ all_tags h sec (similar name) sim) ∧
  (1 < length defs → ∃ f ds locs,
     resolve similar h sec name opt l = Err (EAmbiguous name locs (ErrLoc f l 10)) ∧
     file_path h sec = Some f ∧ ds ≡ₚ defs ∧ Forall2 (defined_at h) ds locs).
Proof.
  intros W V O A. destruct (filter_tags_all h (λ n, String.eqb n name) sec W V) as (ts & E & A').
  assert (ts ≡ₚ defs) as P by by eapply all_tags_perm.
  unfold resolve, find_tag. rewrite E. destruct (file_path_total _ _ W V) as [f Ef].
  split_and!.
  - intros t ->. apply Permutation_singleton_r in P as ->. done.
  - intros ->. apply Permutation_nil_r in P as ->. destruct opt; [done|].
    unfold similar_tags. destruct (filter_tags_all h (similar name) sec W V) as (sim & Es & As).
    rewrite Es, Ef. exists f, sim. done.
  - rewrite <- P. intros Hl. destruct ts as [|t1 [|t2 ts]]; [simpl in Hl; lia|simpl in Hl; lia|].
    rewrite Ef.
    assert (∀ tl, (∀ t, t ∈ tl → t ∈ t1 :: t2 :: ts) → ∃ locs,
      mapM (λ t : tag, match t_section t with
                       | Some ts => f ← file_path h ts; Some (ErrLoc f (t_loc t) 0)
                       | None => None
                       end) tl = Some locs ∧ Forall2 (defined_at h) tl locs) as Hm.
    { induction tl as [|t tl IH]; intros Hin; [by exists []|].
      destruct IH as (locs & El & Fl); [intros ? ?; apply Hin; by right|].
      assert (t ∈ t1 :: t2 :: ts) as Ht by (apply Hin; by left).
      rewrite (all_tags_elem _ _ _ _ _ A') in Ht. destruct Ht as (x & s & Hx & Hs & Ht & _).
      pose proof (O _ _ _ Hs Ht) as Ets. destruct (file_path_total h x W) as [fx Efx].
      { by eapply in_scope_valid. }
      exists (ErrLoc fx (t_loc t) 0 :: locs). simpl. rewrite Ets. simpl. rewrite Efx. simpl.
      rewrite El. simpl. split; [done|]. constructor; [|done]. split; [done|]. eauto. }
    destruct (Hm (t1 :: t2 :: ts)) as (locs & El & Fl); [done|].
    rewrite El. exists f, (t1 :: t2 :: ts), locs. done.
Qed.

Lemma ref_tag_broken similar h sec name opt l : wf h → valid h sec → tags_owned h →
  ∃ t, ref_tag similar true h sec name opt l = Ok t.
Proof.
  intros W V O. destruct (filter_tags_all h (λ n, String.eqb n name) sec W V) as (ts & E & A).
  destruct (resolve_spec similar h sec name opt l ts W V O A) as (H1 & H0 & H2).
  unfold ref_tag. destruct ts as [|t [|t' ts]].
  - specialize (H0 eq_refl). destruct opt.
    + rewrite H0. eauto.
    + destruct H0 as (f & sim & -> & _). eauto.
  - rewrite (H1 t) by done. eauto.
  - destruct H2 as (f & ds & locs & -> & _); [simpl; lia|]. eauto.
Qed.

(** ** C15 *)

Lemma ref_run_resolved similar hist r t : rc_tag r = Some t →
  ref_run similar hist r = (r, map (λ _, Ok (Some t)) hist).
Proof.
  intros Hr. induction hist as [|[b h] hist IH]; simpl; [done|].
  unfold ref_step. rewrite Hr. by rewrite IH.
Qed.

Lemma ref_step_resolved similar b h r r' o : ref_step similar b h r = (r', o) →
  (∃ t, rc_tag r' = Some t ∧ o = Ok (Some t)) ∨ (r' = r ∧ rc_tag r = None).
Proof.
  unfold ref_step. destruct (rc_tag r) as [t|] eqn:Hr.
  - intros [= <- <-]. left. eauto.
  - destruct (resolve _ _ _ _ _ _) as [[t|]|e| |]; intros [= <- <-]; try (by right).
    left. eexists. split; [|done]. done.
Qed.

(** Which results are remembered. *)
Lemma ref_step_real similar b h r r' t : rc_tag r = None →
  ref_step similar b h r = (r', Ok (Some t)) →
  (resolve similar h (rc_section r) (rc_name r) (rc_opt r) (rc_loc r) = Ok (Some t) ∧ rc_tag r' = Some t) ∨
  (b = true ∧ t = broken_tag (rc_section r) (rc_name r) (rc_loc r) ∧ r' = r).
Proof.
  unfold ref_step. intros ->. destruct (resolve _ _ _ _ _ _) as [[t'|]|e| |]; try (intros [= ? ?]; congruence).
  - intros [= <- ->]. by left.
  - destruct b; intros [= <- <-]. by right.
Qed.

(** ** C17 *)

Lemma next_enumerates h r l : wf h → is_top h r → listing h s_split r l →
  l !! 0 = Some r ∧ NoDup l ∧ (∀ x, x ∈ l ↔ rtc (split_child h) r x) ∧
  ∀ k x, l !! k = Some x → next h x = Some (l !! S k).
Proof.
  intros W T L. split_and!.
  - by inversion L.
  - by eapply listing_nodup.
  - intros x. rewrite (listing_elem _ _ _ _ _ L). done.
  - intros k x Hk.
    assert (next_sibling h r = Some None) as En.
    { destruct T as (s & Hs & Hn). rewrite next_sibling_unfold by (done || by eapply lookup_lt_Some).
      unfold next_sibling_F. rewrite Hs. simpl. by rewrite Hn. }
    rewrite (next_listing _ _ _ _ W L En k x Hk). by destruct (l !! S k).
Qed.

Lemma prev_top h r : is_top h r → prev h r = Some None.
Proof. intros (s & Hs & Hn). unfold prev. rewrite Hs. simpl. by rewrite Hn. Qed.

(** ** Corollaries in the shape of the property statements *)

Lemma number_unique h r i j n : wf h → is_top h r → descendant h r i → descendant h r j →
  number h i = Some n → number h j = Some n → i = j.
Proof.
  intros W T Di Dj Ni Nj.
  destruct (position_exists _ _ _ W T Di) as [li Pi]. destruct (position_exists _ _ _ W T Dj) as [lj Pj].
  rewrite (number_position _ _ _ W Pi) in Ni. rewrite (number_position _ _ _ W Pj) in Nj.
  assert (li = lj) as -> by (apply sjoin_dec_inj; congruence).
  by eapply position_inj.
Qed.

Lemma number_empty_iff h i : wf h → valid h i → number h i = Some ""%string ↔ is_top h i.
Proof.
  intros W V. split; [by apply number_top_empty|]. intros (s & Hs & Hn).
  rewrite number_unfold by done. unfold number_F. rewrite Hs. simpl. by rewrite Hn.
Qed.

Lemma find_tag_same h r i j name : wf h → is_top h r → descendant h r i → descendant h r j →
  ∃ ti tj, find_tag h i name = Some ti ∧ find_tag h j name = Some tj ∧ ti ≡ₚ tj.
Proof.
  intros W T Di Dj. assert (valid h r) as Vr by (destruct T as (s & Hs & _); by eapply lookup_lt_Some).
  destruct (listing_exists h (λ _, true) r W Vr) as [l L].
  destruct (filter_tags_tree h r i (λ n, String.eqb n name) l W T Di L) as (ti & Ei & Pi).
  destruct (filter_tags_tree h r j (λ n, String.eqb n name) l W T Dj L) as (tj & Ej & Pj).
  exists ti, tj. split_and!; [done|done|]. by rewrite Pi, Pj.
Qed.

Lemma ref_step_failed similar b h r r' o : ref_step similar b h r = (r', o) →
  (∀ t, o ≠ Ok (Some t)) → r' = r ∧ rc_tag r = None.
Proof.
  intros E Ho. destruct (ref_step_resolved _ _ _ _ _ _ E) as [(t & _ & ->)|?]; [|done].
  by destruct (Ho t).
Qed.

Lemma file_path_nearest h i : wf h → valid h i →
  ∃ f, file_path h i = Some f ∧
   ((∃ a s, ancestor h a i ∧ h !! a = Some s ∧ s_path s = f ∧ f ≠ ""%string ∧
       ∀ b bs, ancestor h b i → h !! b = Some bs → s_path bs ≠ ""%string → ancestor h b a) ∨
    (f = ""%string ∧ ∀ b bs, ancestor h b i → h !! b = Some bs → s_path bs = ""%string)).
Proof.
  intros W V. destruct (file_path_spec h i W V) as (f & E & [(a & s & A & Hs & Hf & Hne & Hb)|H]).
  - exists f. split; [done|]. left. exists a, s. split_and!; try done.
    intros b bs Hbi Hbs Hbne. specialize (Hb b bs Hbi Hbs Hbne).
    destruct (ancestor_chain _ _ _ _ A Hbi) as [Hab|Hba]; [|done].
    pose proof (ancestor_le _ _ _ W Hab). assert (a = b) as -> by lia. constructor.
  - exists f. split; [done|]. by right.
Qed.

Lemma anchor_tags_spec s :
  (∀ t, t ∈ anchor_tags s ↔ t ∈ s_tags s ∧ t_anchor t ≠ ""%string) ∧
  sublist (anchor_tags s) (s_tags s) ∧
  length (anchor_tags s) = length (filter (λ t, t_anchor t ≠ ""%string) (s_tags s)).
Proof.
  unfold anchor_tags. split_and!.
  - intros t. rewrite elem_of_list_In, filter_In, <- elem_of_list_In, negb_true_iff, String.eqb_neq. done.
  - induction (s_tags s) as [|t ts IH]; simpl; [constructor|].
    destruct (negb _); by constructor.
  - induction (s_tags s) as [|t ts IH]; simpl; [done|].
    rewrite filter_cons. destruct (String.eqb_spec (t_anchor t) "") as [E|E]; simpl.
    + rewrite decide_False by auto. done.
    + rewrite decide_True by done. simpl. by rewrite IH.
Qed.

Lemma header_depth_spec h i : wf h → valid h i →
  ∃ d a, header_depth h i = Some (Nat.min 6 (d + 1)) ∧
    nsteps (λ x y, parent_of h x y ∧ ∀ xs, h !! x = Some xs → s_reset xs = false) d a i ∧
    (is_top h a ∨ ∃ p ps, parent_of h p a ∧ h !! p = Some ps ∧ s_reset ps = true).
Proof.
  intros W V. destruct (page_depth_spec h i W V) as (d & a & E & H1 & H2). exists d, a.
  split; [|done].
  assert (header_depth h i = Some (if Nat.ltb 6 (d + 1) then 6 else d + 1)) as ->
    by (unfold header_depth; by rewrite E).
  f_equal. destruct (Nat.ltb_spec 6 (d + 1)); lia.
Qed.

Lemma header_depth_range h i : wf h → valid h i →
  ∃ n, header_depth h i = Some n ∧ 1 ≤ n ∧ n ≤ 6.
Proof.
  intros W V. destruct (header_depth_spec h i W V) as (d & a & E & _). eexists. split; [done|]. lia.
Qed.
