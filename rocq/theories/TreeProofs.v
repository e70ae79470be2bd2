(** Lemmas about section trees. *)
From Coq Require Import Ascii String Lia.
From stdpp Require Import base list strings relations tactics.
From Verif Require Import GoBase Ast Content Section TreeSpec.

(** ** Generic facts about [gofix] *)

Lemma gofix_stable {X A} (F : (X → option A) → X → option A) (m : X → nat) (P : X → Prop) :
  (∀ x g1 g2, P x → (∀ y, P y → m y < m x → g1 y = g2 y) → F g1 x = F g2 x) →
  ∀ x n1 n2, P x → m x < n1 → m x < n2 → gofix F n1 x = gofix F n2 x.
Proof.
  intros HF x. remember (m x) as k eqn:Hk. revert x Hk.
  induction (lt_wf k) as [k _ IH]. intros x Hk n1 n2 HP H1 H2.
  destruct n1 as [|n1], n2 as [|n2]; try lia. simpl.
  apply HF; [done|]. intros y HPy Hlt. apply (IH (m y)); try done; lia.
Qed.

Lemma gofix_unfold {X A} (F : (X → option A) → X → option A) (m : X → nat) (P : X → Prop) n x :
  (∀ x g1 g2, P x → (∀ y, P y → m y < m x → g1 y = g2 y) → F g1 x = F g2 x) →
  P x → m x < n → gofix F n x = F (gofix F n) x.
Proof.
  intros HF HP Hlt. destruct n as [|n]; [lia|].
  change (gofix F (S n) x) with (F (gofix F n) x). apply HF; [done|].
  intros y HPy Hy. apply (gofix_stable F m P HF); try done; lia.
Qed.

(** ** Basic consequences of well-formedness *)

Lemma wf_child_lt h p c : wf h → child_of h p c → p < c.
Proof.
  intros W (s & Hs & Hc). destruct (wf_child h W _ _ _ Hs Hc) as (cs & Hcs & Hp).
  eapply wf_parent; eauto.
Qed.

Lemma wf_child_valid h p c : wf h → child_of h p c → valid h c.
Proof.
  intros W (s & Hs & Hc). destruct (wf_child h W _ _ _ Hs Hc) as (cs & Hcs & _).
  eapply lookup_lt_Some; eauto.
Qed.

Lemma wf_child_parent h p c : wf h → child_of h p c → parent_of h p c.
Proof.
  intros W (s & Hs & Hc). destruct (wf_child h W _ _ _ Hs Hc) as (cs & Hcs & Hp).
  exists cs; done.
Qed.

Lemma parent_of_lt h p c : wf h → parent_of h p c → p < c.
Proof. intros W (s & Hs & Hp). eapply wf_parent; eauto. Qed.

Lemma parent_of_valid h p c : wf h → parent_of h p c → valid h p.
Proof.
  intros W Hp. pose proof (parent_of_lt _ _ _ W Hp). destruct Hp as (s & Hs & _).
  apply lookup_lt_Some in Hs. unfold valid. lia.
Qed.

Lemma parent_of_func h x y z : parent_of h x z → parent_of h y z → x = y.
Proof. intros (s & Hs & Hp) (s' & Hs' & Hp'). simplify_eq. done. Qed.

Lemma ancestor_le h a i : wf h → ancestor h a i → a ≤ i.
Proof.
  intros W. induction 1 as [|x y z Hxy Hyz IH]; [done|].
  apply (parent_of_lt _ _ _ W) in Hxy. lia.
Qed.

Lemma descendant_ancestor h a i : wf h → descendant h a i → ancestor h a i.
Proof.
  intros W. induction 1 as [|x y z Hxy Hyz IH]; [constructor|].
  eapply rtc_l; [|done]. by apply wf_child_parent.
Qed.

Lemma descendant_valid h a i : wf h → valid h a → descendant h a i → valid h i.
Proof.
  intros W V. induction 1 as [|x y z Hxy Hyz IH]; [done|].
  apply IH. by eapply wf_child_valid.
Qed.

(** The last step of an ancestor chain. *)
Lemma ancestor_inv h a i : ancestor h a i → a = i ∨ ∃ p, parent_of h p i ∧ ancestor h a p.
Proof.
  intros H. apply rtc_inv_r in H as [->|(p & H1 & H2)]; [by left|right; eauto].
Qed.

Lemma descendant_inv h a i : wf h →
  descendant h a i → a = i ∨ ∃ p, child_of h p i ∧ parent_of h p i ∧ descendant h a p.
Proof.
  intros W H. apply rtc_inv_r in H as [->|(p & H1 & H2)]; [by left|right].
  exists p. split_and!; try done. by apply wf_child_parent.
Qed.

Lemma ancestor_chain h a b i : ancestor h a i → ancestor h b i → ancestor h a b ∨ ancestor h b a.
Proof.
  intros Ha. revert b. refine (rtc_ind_r_weak (λ a i, ∀ b, ancestor h b i → ancestor h a b ∨ ancestor h b a) _ _ a i Ha);
    [intros x|intros x y z Hxy Hyz IH]; intros b Hb.
  - by right.
  - apply ancestor_inv in Hb as [->|(p & Hp & Hb)].
    + left. eapply rtc_r; [exact Hxy|done].
    + rewrite (parent_of_func _ _ _ _ Hp Hyz) in Hb. by apply IH.
Qed.

Lemma descendant_chain h a b i : wf h →
  descendant h a i → descendant h b i → descendant h a b ∨ descendant h b a.
Proof.
  intros W Ha. revert b. refine (rtc_ind_r_weak (λ a i, ∀ b, descendant h b i → descendant h a b ∨ descendant h b a) _ _ a i Ha);
    [intros x|intros x y z Hxy Hyz IH]; intros b Hb.
  - by right.
  - apply descendant_inv in Hb as [->|(p & Hp & Hpp & Hb)]; [| |done].
    + left. eapply rtc_r; [exact Hxy|done].
    + apply wf_child_parent in Hyz; [|done].
      rewrite (parent_of_func _ _ _ _ Hpp Hyz) in Hb. by apply IH.
Qed.

(** If [x] descends from [a], every Parent-chain ancestor of [x] not above [a]
    is on the Children-chain too. *)
Lemma descendant_mid h a b i : wf h →
  descendant h a i → ancestor h b i → ancestor h a b → descendant h b i.
Proof.
  intros W Ha. revert b. refine (rtc_ind_r_weak (λ a i, ∀ b, ancestor h b i → ancestor h a b → descendant h b i) _ _ a i Ha);
    [intros x|intros x y z Hxy Hyz IH]; intros b Hb Hab.
  - apply (ancestor_le _ _ _ W) in Hb, Hab. assert (b = x) as -> by lia. constructor.
  - apply ancestor_inv in Hb as [->|(p & Hp & Hb)]; [constructor|].
    assert (parent_of h y z) as Hyz' by by apply wf_child_parent.
    rewrite (parent_of_func _ _ _ _ Hp Hyz') in Hb.
    eapply rtc_r; [|exact Hyz]. by apply IH.
Qed.

Lemma sibling_disjoint h i c1 c2 x : wf h →
  child_of h i c1 → child_of h i c2 → c1 ≠ c2 →
  descendant h c1 x → descendant h c2 x → False.
Proof.
  intros W H1 H2 Hne D1 D2.
  assert (∀ a b, child_of h i a → child_of h i b → a ≠ b → descendant h a b → False) as Hk.
  { intros a b Ha Hb Hab D. apply descendant_inv in D as [->|(p & _ & Hp & D)]; [done| |done].
    rewrite (parent_of_func _ _ _ _ Hp (wf_child_parent _ _ _ W Hb)) in D.
    apply (descendant_ancestor _ _ _ W), (ancestor_le _ _ _ W) in D.
    apply (wf_child_lt _ _ _ W) in Ha. lia. }
  destruct (descendant_chain _ _ _ _ W D1 D2); eauto.
Qed.

Lemma child_not_desc_self h i c : wf h → child_of h i c → ¬ descendant h c i.
Proof.
  intros W Hc D. apply (descendant_ancestor _ _ _ W), (ancestor_le _ _ _ W) in D.
  apply (wf_child_lt _ _ _ W) in Hc. lia.
Qed.

Lemma top_ancestor_exists h i : wf h → valid h i → ∃ r, is_top h r ∧ ancestor h r i.
Proof.
  intros W. induction (lt_wf i) as [i _ IH]. intros V.
  destruct (h !! i) as [s|] eqn:Hs; [|apply lookup_ge_None in Hs; unfold valid in V; lia].
  destruct (s_parent s) as [p|] eqn:Hp.
  - assert (parent_of h p i) as Hpi by (exists s; done).
    destruct (IH p) as (r & Hr & Ha).
    + by eapply parent_of_lt.
    + by eapply parent_of_valid.
    + exists r. split; [done|]. eapply rtc_r; done.
  - exists i. split; [exists s; done|constructor].
Qed.

Lemma is_top_func h r r' i : wf h → is_top h r → is_top h r' →
  ancestor h r i → ancestor h r' i → r = r'.
Proof.
  intros W Hr Hr' A A'.
  assert (∀ a b, is_top h b → ancestor h a b → a = b) as Hk.
  { intros a b (s & Hs & Hn) Hab. apply ancestor_inv in Hab as [->|(p & (s' & Hs' & Hp) & _)]; [done|].
    simplify_eq. }
  destruct (ancestor_chain _ _ _ _ A A') as [H|H]; [|symmetry]; by apply Hk.
Qed.

(** ** Unfolding equations *)

  Lemma loop_ext (g1 g2 : nat → option bool) cs :
    (∀ c, c ∈ cs → g1 c = g2 c) →
    (fix loop (cs : list nat) : option bool :=
       match cs with
       | [] => Some false
       | c :: r => b ← g1 c; if (b : bool) then Some true else loop r
       end) cs =
    (fix loop (cs : list nat) : option bool :=
       match cs with
       | [] => Some false
       | c :: r => b ← g2 c; if (b : bool) then Some true else loop r
       end) cs.
  Proof.
    induction cs as [|c cs IH]; intros Hg; [done|].
    rewrite Hg by set_solver. destruct (g2 c) as [[]|]; simpl; try done.
    apply IH. set_solver.
  Qed.

  Lemma loop_true (g : nat → option bool) cs :
    (∀ c, c ∈ cs → ∃ b, g c = Some b) →
    ∃ b,
    (fix loop (cs : list nat) : option bool :=
       match cs with
       | [] => Some false
       | c :: r => b ← g c; if (b : bool) then Some true else loop r
       end) cs = Some b ∧
    (b = true ↔ ∃ c, c ∈ cs ∧ g c = Some true).
  Proof.
    induction cs as [|c cs IH]; intros Hg.
    - exists false. split; [done|]. split; [done|]. intros (c & Hc & _). set_solver.
    - destruct (Hg c) as [b Hb]; [set_solver|]. rewrite Hb. simpl. destruct b.
      + exists true. split; [done|]. split; [|done]. intros _. exists c. set_solver.
      + destruct IH as (b & -> & Hb'); [set_solver|]. exists b. split; [done|].
        rewrite Hb'. split; intros (c' & Hc' & Ht).
        * exists c'. set_solver.
        * apply elem_of_cons in Hc' as [->|]; [congruence|]. eauto.
  Qed.

Section up.
  Context (h : heap) (W : wf h).

  Lemma up_unfold {A} (F : (nat → option A) → nat → option A) i :
    (∀ x g1 g2, (∀ p, parent_of h p x → g1 p = g2 p) → F g1 x = F g2 x) →
    valid h i →
    gofix F (fuel_of h) i = F (gofix F (fuel_of h)) i.
  Proof.
    intros HF V. apply (gofix_unfold F id (valid h)); [|done|unfold fuel_of, id, valid in *; lia].
    intros x g1 g2 _ Hg. apply HF. intros p Hp. apply Hg.
    - by eapply parent_of_valid.
    - by eapply parent_of_lt.
  Qed.

  Lemma down_unfold {A} (F : (nat → option A) → nat → option A) i :
    (∀ x g1 g2, (∀ c, child_of h x c → g1 c = g2 c) → F g1 x = F g2 x) →
    valid h i →
    gofix F (fuel_of h) i = F (gofix F (fuel_of h)) i.
  Proof.
    intros HF V.
    apply (gofix_unfold F (λ i, length h - i) (valid h)); [|done|unfold fuel_of; lia].
    intros x g1 g2 Vx Hg. apply HF. intros c Hc. apply Hg.
    - by eapply wf_child_valid.
    - pose proof (wf_child_lt _ _ _ W Hc). pose proof (wf_child_valid _ _ _ W Hc).
      unfold valid in *. lia.
  Qed.

  Lemma file_path_unfold i : valid h i → file_path h i = file_path_F h (file_path h) i.
  Proof.
    apply up_unfold. intros x g1 g2 Hg. unfold file_path_F.
    destruct (h !! x) as [s|] eqn:Hs; simpl; [|done].
    destruct (String.eqb _ _); [|done]. destruct (s_parent s) eqn:Hp; [|done].
    apply Hg. exists s; done.
  Qed.

  Lemma number_unfold i : valid h i → number h i = number_F h (number h) i.
  Proof.
    apply up_unfold. intros x g1 g2 Hg. unfold number_F.
    destruct (h !! x) as [s|] eqn:Hs; simpl; [|done].
    destruct (s_parent s) eqn:Hp; [|done].
    rewrite Hg; [done|]. exists s; done.
  Qed.

  Lemma top_unfold i : valid h i → top h i = top_F h (top h) i.
  Proof.
    apply up_unfold. intros x g1 g2 Hg. unfold top_F.
    destruct (h !! x) as [s|] eqn:Hs; simpl; [|done].
    destruct (s_parent s) eqn:Hp; [|done]. apply Hg. exists s; done.
  Qed.

  Lemma depth_unfold i : valid h i → depth h i = depth_F h (depth h) i.
  Proof.
    apply up_unfold. intros x g1 g2 Hg. unfold depth_F.
    destruct (h !! x) as [s|] eqn:Hs; simpl; [|done].
    destruct (s_parent s) eqn:Hp; [|done]. rewrite Hg; [done|]. exists s; done.
  Qed.

  Lemma page_depth_unfold i : valid h i → page_depth h i = page_depth_F h (page_depth h) i.
  Proof.
    apply up_unfold. intros x g1 g2 Hg. unfold page_depth_F.
    destruct (h !! x) as [s|] eqn:Hs; simpl; [|done].
    destruct (s_parent s) eqn:Hp; [|done].
    destruct (h !! n) as [ps|]; simpl; [|done]. destruct (s_reset ps); [done|].
    rewrite Hg; [done|]. exists s; done.
  Qed.

  Lemma split_prevented_unfold i :
    valid h i → split_prevented h i = split_prevented_F h (split_prevented h) i.
  Proof.
    apply up_unfold. intros x g1 g2 Hg. unfold split_prevented_F.
    destruct (h !! x) as [s|] eqn:Hs; simpl; [|done].
    destruct (s_prevent s); [done|].
    destruct (s_parent s) eqn:Hp; [|done]. rewrite Hg; [done|]. exists s; done.
  Qed.

  Lemma next_sibling_unfold i :
    valid h i → next_sibling h i = next_sibling_F h (next_sibling h) i.
  Proof.
    apply up_unfold. intros x g1 g2 Hg. unfold next_sibling_F.
    destruct (h !! x) as [s|] eqn:Hs; simpl; [|done].
    destruct (s_parent s) eqn:Hp; [|done].
    destruct (h !! n) as [ps|]; simpl; [|done]. destruct (next_loop _ _ _); [done|].
    apply Hg. exists s; done.
  Qed.

  Lemma has_anchors_unfold i : valid h i → has_anchors h i = has_anchors_F h (has_anchors h) i.
  Proof.
    apply down_unfold. intros x g1 g2 Hg. unfold has_anchors_F.
    destruct (h !! x) as [s|] eqn:Hs; simpl; [|done].
    destruct (existsb _ _); [done|]. destruct (s_split s); [done|].
    apply loop_ext. intros c Hc. apply Hg. exists s; done.
  Qed.

  Lemma contains_unfold sub i : valid h i →
    contains h i sub = contains_F h sub (λ i, contains h i sub) i.
  Proof.
    apply (down_unfold (contains_F h sub)). intros x g1 g2 Hg. unfold contains_F.
    destruct (Nat.eqb x sub); [done|].
    destruct (h !! x) as [s|] eqn:Hs; simpl; [|done].
    apply loop_ext. intros c Hc. apply Hg. exists s; done.
  Qed.

End up.

(** ** C16: tree queries *)

Lemma contains_spec h i sub : wf h → valid h i →
  ∃ b, contains h i sub = Some b ∧ (b = true ↔ descendant h i sub).
Proof.
  intros W. remember (length h - i) as k eqn:Hk. revert i Hk.
  induction (lt_wf k) as [k _ IH]. intros i -> V.
  rewrite contains_unfold by done. unfold contains_F.
  destruct (Nat.eqb_spec i sub) as [->|Hne].
  - exists true. split; [done|]. split; [constructor|done].
  - destruct (h !! i) as [s|] eqn:Hs; [|apply lookup_ge_None in Hs; unfold valid in V; lia].
    simpl.
    assert (∀ c, c ∈ s_children s → child_of h i c) as Hch by (intros c Hc; exists s; done).
    assert (∀ c, c ∈ s_children s →
      ∃ b, contains h c sub = Some b ∧ (b = true ↔ descendant h c sub)) as Hrec.
    { intros c Hc. apply Hch in Hc. pose proof (wf_child_lt _ _ _ W Hc) as Hlt.
      pose proof (wf_child_valid _ _ _ W Hc) as Hv. unfold valid in *.
      eapply (IH (length h - c)); try done. lia. }
    destruct (loop_true (λ i, contains h i sub) (s_children s)) as (b & -> & Hb).
    { intros c Hc. destruct (Hrec c Hc) as (b & ? & _). eauto. }
    exists b. split; [done|]. rewrite Hb. split.
    + intros (c & Hc & Ht). destruct (Hrec c Hc) as (b' & E & Hb'). simplify_eq/=.
      eapply rtc_l; [by apply Hch|]. naive_solver.
    + intros D. inversion D as [|? c ? (s' & Hs' & Hc) D']; [done|subst]. simplify_eq.
      exists c. split; [done|]. destruct (Hrec c Hc) as (b' & E & Hb').
      rewrite E. f_equal. by apply Hb'.
Qed.

Lemma is_or_has_child_spec h i sub : valid h i →
  ∃ b, is_or_has_child h i sub = Some b ∧ (b = true ↔ i = sub ∨ child_of h i sub).
Proof.
  intros V. unfold is_or_has_child. destruct (Nat.eqb_spec i sub) as [->|Hne].
  - exists true. naive_solver.
  - destruct (h !! i) as [s|] eqn:Hs; [|apply lookup_ge_None in Hs; unfold valid in V; lia].
    simpl. eexists. split; [done|]. rewrite existsb_exists. split.
    + intros (x & Hx & E). apply Nat.eqb_eq in E as ->. right. exists s.
      split; [done|]. by apply elem_of_list_In.
    + intros [?|(s' & Hs' & Hc)]; [done|]. simplify_eq. exists sub.
      split; [by apply elem_of_list_In|apply Nat.eqb_refl].
Qed.

Lemma top_spec h i r : wf h → valid h i →
  top h i = Some r ↔ is_top h r ∧ ancestor h r i.
Proof.
  intros W V.
  assert (∃ r, top h i = Some r ∧ is_top h r ∧ ancestor h r i) as (r0 & E & Ht & Ha).
  { revert V. induction (lt_wf i) as [i _ IH]. intros V.
    rewrite top_unfold by done. unfold top_F.
    destruct (h !! i) as [s|] eqn:Hs; [|apply lookup_ge_None in Hs; unfold valid in V; lia].
    simpl. destruct (s_parent s) as [p|] eqn:Hp.
    - assert (parent_of h p i) as Hpi by (exists s; done).
      destruct (IH p) as (r' & E & Ht & Ha).
      { by eapply parent_of_lt. } { by eapply parent_of_valid. }
      exists r'. split_and!; try done. eapply rtc_r; done.
    - exists i. split_and!; [done|exists s; done|constructor]. }
  rewrite E. split.
  - intros [= <-]. done.
  - intros [Ht' Ha']. f_equal. eapply is_top_func; eauto.
Qed.

Lemma depth_spec h i : wf h → valid h i →
  ∃ d r, depth h i = Some d ∧ is_top h r ∧ nsteps (parent_of h) d r i.
Proof.
  intros W. induction (lt_wf i) as [i _ IH]. intros V.
  rewrite depth_unfold by done. unfold depth_F.
  destruct (h !! i) as [s|] eqn:Hs; [|apply lookup_ge_None in Hs; unfold valid in V; lia].
  simpl. destruct (s_parent s) as [p|] eqn:Hp.
  - assert (parent_of h p i) as Hpi by (exists s; done).
    destruct (IH p) as (d & r & E & Ht & Hn).
    { by eapply parent_of_lt. } { by eapply parent_of_valid. }
    rewrite E. simpl. exists (d + 1), r. split_and!; try done.
    rewrite Nat.add_1_r. eapply nsteps_r; done.
  - exists 0, i. split_and!; [done|exists s; done|constructor].
Qed.

(** [FilePath]: nearest ancestor with a non-empty path. *)
Lemma file_path_spec h i : wf h → valid h i →
  ∃ f, file_path h i = Some f ∧
   ((∃ a s, ancestor h a i ∧ h !! a = Some s ∧ s_path s = f ∧ f ≠ ""%string ∧
       ∀ b bs, ancestor h b i → h !! b = Some bs → s_path bs ≠ ""%string → b ≤ a) ∨
    (f = ""%string ∧ ∀ b bs, ancestor h b i → h !! b = Some bs → s_path bs = ""%string)).
Proof.
  intros W. induction (lt_wf i) as [i _ IH]. intros V.
  rewrite file_path_unfold by done. unfold file_path_F.
  destruct (h !! i) as [s|] eqn:Hs; [|apply lookup_ge_None in Hs; unfold valid in V; lia].
  simpl. destruct (String.eqb_spec (s_path s) "") as [He|Hne].
  - destruct (s_parent s) as [p|] eqn:Hp.
    + assert (parent_of h p i) as Hpi by (exists s; done).
      destruct (IH p) as (f & E & Hf).
      { by eapply parent_of_lt. } { by eapply parent_of_valid. }
      exists f. split; [done|]. destruct Hf as [(a & sa & Ha & Hsa & Hpa & Hfn & Hmax)|[-> Hall]].
      * left. exists a, sa. split_and!; try done.
        { eapply rtc_r; done. }
        intros b bs Hb Hbs Hbp. apply ancestor_inv in Hb as [->|(p' & Hp' & Hb)].
        { simplify_eq. }
        rewrite (parent_of_func _ _ _ _ Hp' Hpi) in Hb. eauto.
      * right. split; [done|]. intros b bs Hb Hbs.
        apply ancestor_inv in Hb as [->|(p' & Hp' & Hb)]; [by simplify_eq|].
        rewrite (parent_of_func _ _ _ _ Hp' Hpi) in Hb. eauto.
    + exists ""%string. split; [done|]. right. split; [done|]. intros b bs Hb Hbs.
      apply ancestor_inv in Hb as [->|(p' & (s' & Hs' & Hp') & Hb)]; by simplify_eq.
  - exists (s_path s). split; [done|]. left. exists i, s. split_and!; try done.
    intros b bs Hb _ _. by apply ancestor_le in Hb.
Qed.

(** ** C48: page depth *)

Lemma page_depth_spec h i : wf h → valid h i →
  ∃ d a, page_depth h i = Some d ∧
    nsteps (λ x y, parent_of h x y ∧ ∀ xs, h !! x = Some xs → s_reset xs = false) d a i ∧
    (is_top h a ∨ ∃ p ps, parent_of h p a ∧ h !! p = Some ps ∧ s_reset ps = true).
Proof.
  intros W. induction (lt_wf i) as [i _ IH]. intros V.
  rewrite page_depth_unfold by done. unfold page_depth_F.
  destruct (h !! i) as [s|] eqn:Hs; [|apply lookup_ge_None in Hs; unfold valid in V; lia].
  simpl. destruct (s_parent s) as [p|] eqn:Hp.
  - assert (parent_of h p i) as Hpi by (exists s; done).
    pose proof (parent_of_valid _ _ _ W Hpi) as Vp.
    destruct (h !! p) as [ps|] eqn:Hps; [|apply lookup_ge_None in Hps; unfold valid in Vp; lia].
    simpl. destruct (s_reset ps) eqn:Hr.
    + exists 0, i. split_and!; [done|constructor|]. right. exists p, ps. done.
    + destruct (IH p) as (d & a & E & Hn & Ha); [by eapply parent_of_lt|done|].
      rewrite E. simpl. exists (d + 1), a. split; [done|]. split; [|done].
      rewrite Nat.add_1_r. eapply nsteps_r; [exact Hn|]. split; [done|]. intros; by simplify_eq.
  - exists 0, i. split_and!; [done|constructor|]. left. exists s; done.
Qed.

Lemma split_prevented_spec h i : wf h → valid h i →
  ∃ b, split_prevented h i = Some b ∧
    (b = true ↔ ∃ a s, ancestor h a i ∧ h !! a = Some s ∧ s_prevent s = true).
Proof.
  intros W. induction (lt_wf i) as [i _ IH]. intros V.
  rewrite split_prevented_unfold by done. unfold split_prevented_F.
  destruct (h !! i) as [s|] eqn:Hs; [|apply lookup_ge_None in Hs; unfold valid in V; lia].
  simpl. destruct (s_prevent s) eqn:Hpv.
  - exists true. split; [done|]. split; [|done]. intros _. exists i, s. split_and!; try done.
  - destruct (s_parent s) as [p|] eqn:Hp.
    + assert (parent_of h p i) as Hpi by (exists s; done).
      destruct (IH p) as (b & E & Hb); [by eapply parent_of_lt|by eapply parent_of_valid|].
      rewrite E. simpl. exists b. split; [by destruct b|]. rewrite Hb. split.
      * intros (a & sa & Ha & ?). exists a, sa. split; [|done]. eapply rtc_r; [exact Ha|done].
      * intros (a & sa & Ha & Hsa & Hpa). apply ancestor_inv in Ha as [->|(p' & Hp' & Ha)]; [congruence|].
        rewrite (parent_of_func _ _ _ _ Hp' Hpi) in Ha. eauto.
    + exists false. split; [done|]. split; [done|].
      intros (a & sa & Ha & Hsa & Hpa). apply ancestor_inv in Ha as [->|(p' & (s' & Hs' & Hp') & _)]; congruence.
Qed.

(** ** C41: anchors *)

Lemma has_anchors_spec h i : wf h → valid h i →
  ∃ b, has_anchors h i = Some b ∧
    (b = true ↔ ∃ x s t, rtc (inlined h) i x ∧ h !! x = Some s ∧ t ∈ s_tags s ∧ t_anchor t ≠ ""%string).
Proof.
  intros W. remember (length h - i) as k eqn:Hk. revert i Hk.
  induction (lt_wf k) as [k _ IH]. intros i -> V.
  rewrite has_anchors_unfold by done. unfold has_anchors_F.
  destruct (h !! i) as [s|] eqn:Hs; [|apply lookup_ge_None in Hs; unfold valid in V; lia].
  simpl. destruct (existsb _ _) eqn:Hex.
  - exists true. split; [done|]. split; [|done]. intros _.
    apply existsb_exists in Hex as (t & Ht & Hn). exists i, s, t. split_and!; try done.
    + by apply elem_of_list_In.
    + intros E. rewrite E in Hn. done.
  - assert (∀ t, t ∈ s_tags s → t_anchor t = ""%string) as Hno.
    { intros t Ht. destruct (String.eqb_spec (t_anchor t) "") as [|Hn]; [done|exfalso].
      assert (existsb (λ t, negb (String.eqb (t_anchor t) "")) (s_tags s) = true); [|congruence].
      apply existsb_exists. exists t. split; [by apply elem_of_list_In|].
      destruct (String.eqb_spec (t_anchor t) ""); done. }
    destruct (s_split s) eqn:Hsp.
    + exists false. split; [done|]. split; [done|].
      intros (x & sx & t & R & Hx & Ht & Hn).
      inversion R as [|? c ? (s' & Hs' & Hc & Hf) R']; subst; [|congruence].
      simplify_eq. by apply Hno in Ht.
    + assert (∀ c, c ∈ s_children s → ∃ b, has_anchors h c = Some b ∧
       (b = true ↔ ∃ x s t, rtc (inlined h) c x ∧ h !! x = Some s ∧ t ∈ s_tags s ∧ t_anchor t ≠ ""%string)) as Hrec.
      { intros c Hc. assert (child_of h i c) as Hc' by (exists s; done).
        pose proof (wf_child_lt _ _ _ W Hc') as Hlt. pose proof (wf_child_valid _ _ _ W Hc') as Hv.
        unfold valid in *. eapply (IH (length h - c)); try done. lia. }
      destruct (loop_true (has_anchors h) (s_children s)) as (b & -> & Hb).
      { intros c Hc. destruct (Hrec c Hc) as (b & ? & _). eauto. }
      exists b. split; [done|]. rewrite Hb. split.
      * intros (c & Hc & Ht). destruct (Hrec c Hc) as (b' & E & Hb'). simplify_eq.
        destruct Hb' as [Hb' _]. destruct Hb' as (x & sx & t & R & Hx & Htt & Hn); [done|].
        exists x, sx, t. split_and!; try done. eapply rtc_l; [|done]. exists s; done.
      * intros (x & sx & t & R & Hx & Htt & Hn).
        inversion R as [|? c ? (s' & Hs' & Hc & Hf) R']; subst; simplify_eq.
        { by apply Hno in Htt. }
        exists c. split; [done|]. destruct (Hrec c Hc) as (b' & E & Hb'). rewrite E. f_equal.
        apply Hb'. eauto 10.
Qed.
