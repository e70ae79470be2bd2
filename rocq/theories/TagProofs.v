(** C13: completeness of the tag search. *)
From Coq Require Import Ascii String Lia.
From stdpp Require Import base list strings relations tactics.
From Verif Require Import GoBase Ast Content Section TreeSpec TreeProofs.

(** Tags with a matching name attached to section [x]. *)
Definition tags_at (h : heap) (m : string → bool) (x : nat) : list tag :=
  match h !! x with
  | Some s => List.filter (λ t, m (t_name t)) (s_tags s)
  | None => []
  end.

(** The sections the search covers: everything below any ancestor. For a section
    attached to its tree this is the whole tree. *)
Definition in_scope (h : heap) (i x : nat) : Prop :=
  ∃ a, ancestor h a i ∧ descendant h a x.

Definition ft_loop (rec : bool * option nat * nat → option (list tag)) (exclude : option nat) :=
  fix loop (cs : list nat) : option (list tag) :=
     match cs with
     | [] => Some []
     | c :: r =>
       if (match exclude with Some e => Nat.eqb c e | None => false end) then loop r
       else a ← rec (false, None, c); b ← loop r; Some (a ++ b)
     end.

Definition excluded (exclude : option nat) (c : nat) : Prop :=
  match exclude with Some e => c = e | None => False end.

Lemma ft_loop_spec h m rec exclude cs :
  (∀ c, c ∈ cs → ∃ ids, NoDup ids ∧ (∀ x, x ∈ ids ↔ descendant h c x) ∧
     rec (false, None, c) = Some (flat_map (tags_at h m) ids)) →
  (∀ c1 c2 x, c1 ∈ cs → c2 ∈ cs → c1 ≠ c2 → descendant h c1 x → descendant h c2 x → False) →
  NoDup cs →
  ∃ ids, NoDup ids ∧
    (∀ x, x ∈ ids ↔ ∃ c, c ∈ cs ∧ ¬ excluded exclude c ∧ descendant h c x) ∧
    ft_loop rec exclude cs = Some (flat_map (tags_at h m) ids).
Proof.
  induction cs as [|c cs IH]; intros Hrec Hdis Hnd.
  - exists []. split; [constructor|]. split; [|done]. set_solver.
  - inversion Hnd as [|? ? Hnc Hnd']; subst.
    destruct IH as (ids & ND & Hin & Heq).
    { intros c' Hc'. apply Hrec. by right. }
    { intros c1 c2 x H1 H2. apply Hdis; by right. }
    { done. }
    simpl. destruct (match exclude with Some e => Nat.eqb c e | None => false end) eqn:Hex.
    + exists ids. split_and!; [done| |done]. intros x. rewrite Hin.
      assert (excluded exclude c) as Hx.
      { destruct exclude as [e|]; [|done]. by apply Nat.eqb_eq in Hex. }
      split.
      * intros (c' & Hc' & ? & ?). exists c'. split; [by right|done].
      * intros (c' & Hc' & ? & ?). apply elem_of_cons in Hc' as [->|]; [done|]. eauto.
    + assert (¬ excluded exclude c) as Hx.
      { destruct exclude as [e|]; simpl; [|tauto]. by apply Nat.eqb_neq in Hex. }
      destruct (Hrec c) as (idc & NDc & Hinc & ->); [by left|]. simpl.
      rewrite Heq. simpl. exists (idc ++ ids). split_and!.
      * apply NoDup_app. split_and!; try done. intros x Hxc Hxi.
        apply Hinc in Hxc. apply Hin in Hxi as (c' & Hc' & _ & Hd).
        eapply (Hdis c c'); [by left|by right| |done|done]. intros ->. done.
      * intros x. rewrite elem_of_app, Hinc, Hin. split.
        -- intros [D|(c' & Hc' & ? & ?)]; [exists c|exists c']; (split; [|done]); [by left|by right].
        -- intros (c' & Hc' & ? & ?). apply elem_of_cons in Hc' as [->|]; [by left|right; eauto].
      * by rewrite flat_map_app.
Qed.

Lemma filter_down h m n i : wf h → valid h i → length h - i < n →
  ∃ ids, NoDup ids ∧ (∀ x, x ∈ ids ↔ descendant h i x) ∧
    gofix (filter_tags_F h m) n (false, None, i) = Some (flat_map (tags_at h m) ids).
Proof.
  intros W. revert i. induction n as [|n IH]; intros i V Hn; [lia|]. simpl.
  destruct (h !! i) as [s|] eqn:Hs; [|apply lookup_ge_None in Hs; unfold valid in V; lia].
  simpl. fold (ft_loop (gofix (filter_tags_F h m) n) None).
  assert (∀ c, c ∈ s_children s → child_of h i c) as Hch by (intros c Hc; exists s; done).
  destruct (ft_loop_spec h m (gofix (filter_tags_F h m) n) None (s_children s))
    as (ids & ND & Hin & Heq).
  - intros c Hc. apply Hch in Hc. apply IH; [by eapply wf_child_valid|].
    pose proof (wf_child_lt _ _ _ W Hc). pose proof (wf_child_valid _ _ _ W Hc).
    unfold valid in *. lia.
  - intros c1 c2 x H1 H2 Hne D1 D2. eapply (sibling_disjoint h i c1 c2 x); eauto.
  - by eapply wf_nodup.
  - exists (i :: ids). split_and!.
    + constructor; [|done]. rewrite Hin. intros (c & Hc & _ & D).
      eapply child_not_desc_self; eauto.
    + intros x. rewrite elem_of_cons, Hin. split.
      * intros [->|(c & Hc & _ & D)]; [constructor|]. eapply rtc_l; [by apply Hch|done].
      * intros D. inversion D as [|? c ? (s' & Hs' & Hc) D']; subst; [by left|].
        simplify_eq. right. exists c. simpl. tauto.
    + fold (ft_loop (gofix (filter_tags_F h m) n) None). rewrite Heq. simpl.
      by replace (tags_at h m i) with (List.filter (λ t, m (t_name t)) (s_tags s)) by (unfold tags_at; by rewrite Hs).
Qed.

Lemma filter_up h m n i exclude : wf h → valid h i → S (length h) + i < n →
  (∀ e, exclude = Some e → parent_of h i e) →
  ∃ ids, NoDup ids ∧
    (∀ x, x ∈ ids ↔ in_scope h i x ∧ ∀ e, exclude = Some e → ¬ descendant h e x) ∧
    gofix (filter_tags_F h m) n (true, exclude, i) = Some (flat_map (tags_at h m) ids).
Proof.
  intros W. revert i exclude. induction n as [|n IH]; intros i exclude V Hn Hex; [lia|]. simpl.
  destruct (h !! i) as [s|] eqn:Hs; [|apply lookup_ge_None in Hs; unfold valid in V; lia].
  simpl. fold (ft_loop (gofix (filter_tags_F h m) n) exclude).
  assert (∀ c, c ∈ s_children s → child_of h i c) as Hch by (intros c Hc; exists s; done).
  destruct (ft_loop_spec h m (gofix (filter_tags_F h m) n) exclude (s_children s))
    as (ids & ND & Hin & Heq).
  - intros c Hc. apply Hch in Hc. apply filter_down; [done|by eapply wf_child_valid|]. lia.
  - intros c1 c2 x H1 H2 Hne D1 D2. eapply (sibling_disjoint h i c1 c2 x); eauto.
  - by eapply wf_nodup.
  - fold (ft_loop (gofix (filter_tags_F h m) n) exclude). rewrite Heq. simpl.
    (* the local part covers exactly the descendants of [i] not below the excluded child *)
    assert (∀ x, x ∈ i :: ids ↔ descendant h i x ∧ ∀ e, exclude = Some e → ¬ descendant h e x) as Hloc.
    { intros x. rewrite elem_of_cons, Hin. split.
      - intros [->|(c & Hc & Hne & D)].
        + split; [constructor|]. intros e -> D.
          apply (descendant_ancestor _ _ _ W), (ancestor_le _ _ _ W) in D.
          specialize (Hex e eq_refl). apply (parent_of_lt _ _ _ W) in Hex. lia.
        + split; [eapply rtc_l; [by apply Hch|done]|]. intros e -> De. simpl in Hne.
          specialize (Hex e eq_refl).
          destruct (descendant_chain _ _ _ _ W D De) as [D'|D'].
          * apply descendant_inv in D' as [->|(p & _ & Hp & D')]; [done| |done].
            rewrite (parent_of_func _ _ _ _ Hp Hex) in D'.
            eapply (child_not_desc_self h i c); eauto.
          * apply descendant_inv in D' as [->|(p & Hpc & Hp & D')]; [done| |done].
            apply Hch in Hc. rewrite (parent_of_func _ _ _ _ Hp (wf_child_parent _ _ _ W Hc)) in D'.
            apply (descendant_ancestor _ _ _ W), (ancestor_le _ _ _ W) in D'.
            apply (parent_of_lt _ _ _ W) in Hex. lia.
      - intros [D Hne]. inversion D as [|? c ? (s' & Hs' & Hc) D']; subst; [by left|].
        simplify_eq. right. exists c. split_and!; try done.
        destruct exclude as [e|]; simpl; [|tauto]. intros ->. by eapply Hne. }
    assert (NoDup (i :: ids)) as NDi.
    { constructor; [|done]. rewrite Hin. intros (c & Hc & _ & D).
      eapply child_not_desc_self; eauto. }
    destruct (s_parent s) as [p|] eqn:Hp.
    + assert (parent_of h p i) as Hpi by (exists s; done).
      destruct (IH p (Some i)) as (idu & NDu & Hinu & Hequ).
      { by eapply parent_of_valid. }
      { pose proof (parent_of_lt _ _ _ W Hpi). lia. }
      { intros e [= <-]. done. }
      rewrite Hequ. simpl. exists ((i :: ids) ++ idu). split_and!.
      * apply NoDup_app. split_and!; try done. intros x Hx1 Hx2.
        apply Hloc in Hx1 as [D _]. apply Hinu in Hx2 as [_ Hn2]. by eapply Hn2.
      * intros x. rewrite elem_of_app, Hloc, Hinu. split.
        -- intros [[D Hne]|[(a & Ha & D) Hne]].
           ++ split; [|done]. exists i. split; [constructor|done].
           ++ assert (ancestor h a i) as Hai by (eapply rtc_r; [exact Ha|exact Hpi]).
              split; [exists a; done|].
              intros e He De. specialize (Hex e He).
              apply (Hne i eq_refl).
              eapply (descendant_mid h a i x); try done.
              eapply rtc_l; [exact Hex|]. by apply descendant_ancestor.
        -- intros [(a & Ha & D) Hne].
           assert (descendant h i x ∨ ¬ descendant h i x) as [Di|Di]; [|by left|right].
           { destruct (contains_spec h i x W V) as ([] & _ & Hb); [left|right]; [by apply Hb|].
             intros D'. by apply Hb in D'. }
           split; [|intros e [= <-]; done].
           apply ancestor_inv in Ha as [->|(p' & Hp' & Ha)]; [done|].
           rewrite (parent_of_func _ _ _ _ Hp' Hpi) in Ha. exists a. done.
      * rewrite flat_map_app. simpl.
        replace (tags_at h m i) with (List.filter (λ t, m (t_name t)) (s_tags s)) by (unfold tags_at; by rewrite Hs).
        by rewrite <- app_assoc.
    + exists (i :: ids). split_and!; [done| |].
      * intros x. rewrite Hloc. split; intros [D Hne]; (split; [|done]).
        -- exists i. split; [constructor|done].
        -- destruct D as (a & Ha & D).
           apply ancestor_inv in Ha as [->|(p' & (s' & Hs' & Hp') & _)]; [done|congruence].
      * simpl.
        by replace (tags_at h m i) with (List.filter (λ t, m (t_name t)) (s_tags s)) by (unfold tags_at; by rewrite Hs).
Qed.
