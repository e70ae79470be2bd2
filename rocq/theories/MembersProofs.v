(** Templates are told what MembersSpec.v says. *)
From Coq Require Import Ascii String Lia.
From stdpp Require Import base tactics relations strings list.
From Verif Require Import GoBase Ast Content Section TreeSpec ContentSpec ContentProofs TreeProofs TagProofs NavProofs QueryProofs Render RenderSpec WriterProofs StrProofs Html TextRender TmplExec TmplMeaning TmplMeaningProofs Props_Refs MembersSpec.
Local Open Scope string_scope. Local Open Scope list_scope.

Lemma shown_iff c v : shown c v ↔ v = vcon c.
Proof.
  split; [intros [i|c' H]; [done|]; destruct c'; try done; by edestruct H|]. intros ->. destruct c; cbn; constructor; done.
Qed.
Lemma shown_opt_iff o v : shown_opt o v ↔ v = vcon_opt o.
Proof.
  split.
  - intros [|c w H]; [done|]. by apply shown_iff in H.
  - intros ->. destruct o as [c|]; [|constructor]. constructor. by apply shown_iff.
Qed.
Lemma section_opt_iff o v : section_opt o v ↔ v = vsec_opt o.
Proof. split; [by intros []|]. intros ->. destruct o; constructor. Qed.
Lemma shown_all l vs : Forall2 shown l vs ↔ vs = map vcon l.
Proof.
  split.
  - induction 1 as [|c v l vs Hc _ IH]; [done|]. apply shown_iff in Hc as ->. by rewrite IH.
  - intros ->. induction l as [|c l IH]; constructor; [by apply shown_iff|done].
Qed.
Lemma rows_all rows vss : Forall2 (λ row v, ∃ vs, v = VList vs ∧ Forall2 shown row vs) rows vss ↔ vss = map (λ r, VList (map vcon r)) rows.
Proof.
  split.
  - induction 1 as [|r v rows vss (vs & -> & H) _ IH]; [done|]. apply shown_all in H as ->. by rewrite IH.
  - intros ->. induction rows as [|r rows IH]; constructor; [|done]. exists (map vcon r). split; [done|]. by apply shown_all.
Qed.

Lemma nsteps_stop (R : nat → nat → Prop) d a i : (∀ x y z, R x z → R y z → x = y) → nsteps R d a i → (∀ x, ¬ R x a) →
  ∀ d' a', nsteps R d' a' i → (∀ x, ¬ R x a') → d = d'.
Proof.
  intros F. revert i. induction d as [|d IH]; intros i H Hs d' a' H' Hs'.
  - inversion H; subst. destruct d' as [|d']; [done|]. apply nsteps_inv_r in H' as (y & _ & Hy). by destruct (Hs y).
  - apply nsteps_inv_r in H as (y & H & Hy). destruct d' as [|d']; [inversion H'; subst; by destruct (Hs' y)|].
    apply nsteps_inv_r in H' as (y' & H' & Hy'). rewrite (F _ _ _ Hy' Hy) in H'. f_equal. by eapply IH.
Qed.
Lemma top_no_parent h r x : is_top h r → ¬ parent_of h x r.
Proof. intros (s & Hs & Hn) (s' & Hs' & Hp). congruence. Qed.
Lemma depth_is h i r d : wf h → valid h i → is_top h r → nsteps (parent_of h) d r i → depth h i = Some d.
Proof.
  intros W V T N. destruct (depth_spec h i W V) as (d' & r' & -> & T' & N'). f_equal.
  eapply (nsteps_stop (parent_of h)); [apply parent_of_func|exact N'|intros x; by apply top_no_parent|exact N|intros x; by apply top_no_parent].
Qed.
Lemma page_depth_is h i a d : wf h → valid h i → nsteps (λ x y, parent_of h x y ∧ ∀ xs, h !! x = Some xs → s_reset xs = false) d a i →
  (is_top h a ∨ ∃ p ps, parent_of h p a ∧ h !! p = Some ps ∧ s_reset ps = true) → page_depth h i = Some d.
Proof.
  intros W V N S. destruct (page_depth_spec h i W V) as (d' & a' & -> & N' & S'). f_equal.
  assert (∀ a, (is_top h a ∨ ∃ p ps, parent_of h p a ∧ h !! p = Some ps ∧ s_reset ps = true) →
    ∀ x, ¬ (parent_of h x a ∧ ∀ xs, h !! x = Some xs → s_reset xs = false)) as Stop.
  { intros b [T|(p & ps & Hp & Hps & Hr)] x [Hx Hn]; [by apply (top_no_parent h b x)|].
    rewrite (parent_of_func _ _ _ _ Hx Hp) in Hn. rewrite (Hn _ Hps) in Hr. done. }
  eapply (nsteps_stop (λ x y, parent_of h x y ∧ ∀ xs, h !! x = Some xs → s_reset xs = false)).
  - intros x y z [H _] [H' _]. by eapply parent_of_func.
  - exact N'.
  - by apply Stop.
  - exact N.
  - by apply Stop.
Qed.
Lemma follows_is h i o : wf h → follows h i o → next_sibling h i = Some o.
Proof.
  intros W. induction 1 as [i T|p ps k i j Hp Hk Hj|p ps k i o Hp Hk Hj _ IH].
  - destruct T as (s & Hs & Hn). rewrite next_sibling_unfold by (done || by eapply lookup_lt_Some).
    unfold next_sibling_F. rewrite Hs. simpl. by rewrite Hn.
  - rewrite (next_sibling_child _ _ _ _ _ W Hp Hk). by rewrite Hj.
  - rewrite (next_sibling_child _ _ _ _ _ W Hp Hk). by rewrite Hj.
Qed.
Lemma follows_exists h r i : wf h → is_top h r → descendant h r i → ∃ o, follows h i o.
Proof.
  intros W T D. refine (rtc_ind_r_weak (λ r i, is_top h r → ∃ o, follows h i o) _ _ r i D T).
  - intros x Tx. exists None. by constructor.
  - intros x p c _ (ps & Hp & Hc) IH Tx. destruct (IH Tx) as [o Ho]. apply elem_of_list_lookup in Hc as [k Hk].
    destruct (s_children ps !! S k) as [j|] eqn:Hj; [exists (Some j); by eapply follows_next|exists o; by eapply follows_up].
Qed.
Lemma stands_is h i f : wf h → valid h i → stands_in h i f → file_path h i = Some f.
Proof.
  intros W V H. destruct (file_path_nearest h i W V) as (f' & -> & H'). f_equal.
  destruct H as [(a & s & A & Hs & Hp & Hf & Hn)|[-> Hn]], H' as [(a' & s' & A' & Hs' & Hp' & Hf' & Hn')|[-> Hn']].
  - assert (a = a') as ->.
    { apply Nat.le_antisymm; eapply ancestor_le; eauto; [eapply Hn'|eapply Hn]; eauto; congruence. }
    congruence.
  - destruct Hf. subst f. eauto.
  - destruct Hf'. subst f'. eauto.
  - done.
Qed.
Lemma anchors_filter l : List.filter (λ t, negb (String.eqb (t_anchor t) "")) l = filter (λ t, t_anchor t ≠ "") l.
Proof.
  induction l as [|t l IH]; [done|]. cbn [List.filter]. destruct (String.eqb_spec (t_anchor t) "") as [E|E]; cbn [negb].
  - rewrite filter_cons_False; [done|]. intros X. by apply X.
  - rewrite filter_cons_True by done. by rewrite IH.
Qed.
Lemma iff_bool (b b' : bool) (P : Prop) : (b = true ↔ P) → (b' = true ↔ P) → b = b'.
Proof. intros H H'. destruct b, b'; naive_solver. Qed.

Section told.
  Context (similar : string → string → bool) (broken : bool) (h : heap) (str : content → outcome error string).
  Notation mem := (member similar broken h str).

  (** One of the comparisons with a name. *)
  Ltac at_name f := match goal with |- context [String.eqb f ?x] => destruct (String.eqb_spec f x) as [->|_] end.

  Lemma section_told r i s f args v : wf h → is_top h r → descendant h r i → h !! i = Some s →
    section_member h str i s f args = Ok v → tells h str i s f args v.
  Proof.
    intros W T D Hi. assert (valid h i) as V by by eapply lookup_lt_Some. unfold section_member.
    destruct args as [|a [|b args]]; [|destruct a as [| | |nm| | | |j| | | |]; try done|by destruct a].
    - at_name f; [intros [= <-]; constructor|]. at_name f; [intros [= <-]; constructor; by apply shown_iff|].
      at_name f; [intros [= <-]; constructor; by apply shown_iff|]. at_name f; [intros [= <-]; constructor|].
      at_name f; [intros [= <-]; constructor|]. at_name f; [intros [= <-]; constructor; by apply section_opt_iff|].
      do 6 (at_name f; [intros [= <-]; constructor|]).
      at_name f; [unfold text_val; destruct (str (CSection i)) as [t|e| |] eqn:Et; try done; intros [= <-]; by constructor|].
      at_name f.
      { destruct (file_path_nearest h i W V) as (p & -> & Hp). intros [= <-]. by apply tells_file. }
      at_name f; [intros [= <-]; constructor|].
      at_name f.
      { destruct (position_exists h r i W T D) as [l Hl]. rewrite (number_position _ _ _ W Hl). intros [= <-]. by constructor. }
      at_name f.
      { destruct (has_anchors_spec h i W V) as (b & -> & Hb). intros [= <-]. by constructor. }
      at_name f; [intros [= <-]; unfold anchor_tags; rewrite anchors_filter; constructor|].
      at_name f.
      { destruct (top h i) as [t|] eqn:Et; [|done]. intros [= <-]. apply top_spec in Et as [? ?]; [|done|done]. by constructor. }
      at_name f.
      { unfold descendant in D. apply rtc_inv_r in D as [<-|(p & Dp & (ps & Hp & Hc))].
        - rewrite (prev_top h r T). intros [= <-]. by constructor.
        - apply elem_of_list_lookup in Hc as [k Hk]. rewrite (prev_child _ _ _ _ _ W Hp Hk). destruct k as [|k].
          + intros [= <-]. exact (tells_prev_parent _ _ _ _ p ps Hp Hk).
          + destruct (lookup_lt_is_Some_2 (s_children ps) k) as [j Hj]; [apply lookup_lt_Some in Hk; lia|]. rewrite Hj.
            intros [= <-]. exact (tells_prev_sibling _ _ _ _ p ps k j Hp Hk Hj). }
      destruct (follows_exists h r i W T D) as [o Ho]. pose proof (follows_is _ _ _ W Ho) as Hn.
      at_name f.
      { unfold next. rewrite Hi. cbn [base.mbind option_bind]. destruct (s_split s) eqn:Es; [destruct (s_children s) as [|c cs] eqn:Ec|].
        - rewrite Hn. intros [= <-]. eapply tells_next; [done|done|by apply section_opt_iff].
        - intros [= <-]. by eapply tells_next_child.
        - rewrite Hn. intros [= <-]. eapply tells_next; [congruence|done|by apply section_opt_iff]. }
      at_name f; [rewrite Hn; intros [= <-]; eapply tells_next_sibling; [done|by apply section_opt_iff]|].
      at_name f.
      { destruct (depth_spec h i W V) as (d & t & -> & Ht & Hd). intros [= <-]. by econstructor. }
      at_name f.
      { destruct (page_depth_spec h i W V) as (d & t & -> & Ht & Hd). intros [= <-]. by econstructor. }
      at_name f.
      { destruct (split_prevented_spec h i W V) as (b & -> & Hb). intros [= <-]. by constructor. }
      done.
    - at_name f; [intros [= <-]; constructor; by apply shown_opt_iff|]. at_name f; [|done].
      assert (valid h r) as Vr by (destruct T as (x & Hx & _); by eapply lookup_lt_Some).
      destruct (listing_exists h (λ _, true) r W Vr) as [l Hl].
      destruct (filter_tags_tree h r i (λ n, String.eqb n nm) l W T D Hl) as (ts & Ets & Hts). unfold find_tag. rewrite Ets.
      intros [= <-]. by econstructor.
    - at_name f; [|at_name f; [|done]].
      + destruct (contains_spec h i j W V) as (b & -> & Hb). intros [= <-]. by constructor.
      + destruct (is_or_has_child_spec h i j V) as (b & -> & Hb). intros [= <-]. by constructor.
  Qed.

  Lemma section_answers i s f args v : wf h → h !! i = Some s → tells h str i s f args v →
    ∃ v', section_member h str i s f args = Ok v' ∧ (f ≠ "FindTag" → v' = v).
  Proof.
    intros W Hi. assert (valid h i) as V by by eapply lookup_lt_Some.
    destruct 1 as [|v H|v H| | |v H| | | | | | |t H| |f H|l H|b H| |r H1 H2|H|p ps Hp Hk|p ps k j Hp Hk Hj|c cs Hs Hc|o v Hs Ho Hv|o v Ho Hv|r d T N|d a N S|b H|j b H|j b H|nm v H|nm r l ts T D L P];
      unfold section_member; cbn [String.eqb Ascii.eqb Bool.eqb]; try (eexists; split; [reflexivity|done]).
    - apply shown_iff in H as ->. eauto.
    - apply shown_iff in H as ->. eauto.
    - apply section_opt_iff in H as ->. eauto.
    - unfold text_val. rewrite H. eauto.
    - rewrite (stands_is _ _ _ W V H). cbn [want]. eauto.
    - rewrite (number_position _ _ _ W H). cbn [want]. eauto.
    - destruct (has_anchors_spec h i W V) as (b' & -> & Hb). rewrite (iff_bool _ _ _ H Hb). cbn [want]. eauto.
    - unfold anchor_tags. rewrite anchors_filter. eauto.
    - rewrite (proj2 (top_spec h i r W V)) by done. cbn [want]. eauto.
    - rewrite (prev_top _ _ H). cbn [want]. eauto.
    - rewrite (prev_child _ _ _ _ _ W Hp Hk). cbn [want]. eauto.
    - rewrite (prev_child _ _ _ _ _ W Hp Hk), Hj. cbn [want]. eauto.
    - unfold next. rewrite Hi. cbn [base.mbind option_bind]. rewrite Hs, Hc. cbn [want]. eauto.
    - apply section_opt_iff in Hv as ->. unfold next. rewrite Hi. cbn [base.mbind option_bind]. rewrite (follows_is _ _ _ W Ho).
      destruct (s_split s); [rewrite (Hs eq_refl)|]; cbn [want]; eauto.
    - apply section_opt_iff in Hv as ->. rewrite (follows_is _ _ _ W Ho). cbn [want]. eauto.
    - rewrite (depth_is _ _ _ _ W V T N). cbn [want]. eauto.
    - rewrite (page_depth_is _ _ _ _ W V N S). cbn [want]. eauto.
    - destruct (split_prevented_spec h i W V) as (b' & -> & Hb). rewrite (iff_bool _ _ _ H Hb). cbn [want]. eauto.
    - destruct (contains_spec h i j W V) as (b' & -> & Hb). rewrite (iff_bool _ _ _ H Hb). cbn [want]. eauto.
    - destruct (is_or_has_child_spec h i j V) as (b' & -> & Hb). rewrite (iff_bool _ _ _ H Hb). cbn [want]. eauto.
    - apply shown_opt_iff in H as ->. eauto.
    - destruct (filter_tags_tree h r i (λ n, String.eqb n nm) l W T D L) as (ts' & Ets & Hts). unfold find_tag. rewrite Ets. cbn [want].
      eexists. split; [reflexivity|]. done.
  Qed.

  Lemma find_valid sec name ts : find_tag h sec name = Some ts → valid h sec.
  Proof.
    unfold find_tag, filter_tags. intros H. destruct (h !! sec) as [x|] eqn:E; [by eapply lookup_lt_Some|].
    unfold gofix, fuel_of in H. destruct (2 * _) eqn:Ef; [done|]. cbn in H. by rewrite E in H.
  Qed.
  Lemma find_all_tags sec name ts : wf h → find_tag h sec name = Some ts → all_tags h sec (λ n, String.eqb n name) ts.
  Proof.
    intros W H. pose proof (find_valid _ _ _ H) as V. destruct (filter_tags_all h (λ n, String.eqb n name) sec W V) as (ts' & E & A).
    unfold find_tag in H. congruence.
  Qed.
  Lemma ref_refers sec name opt l t : wf h → ref_tag similar broken h sec name opt l = Ok t → refers h broken sec name opt l t.
  Proof.
    intros W. unfold ref_tag, resolve. destruct (find_tag h sec name) as [ts|] eqn:E; [|done]. pose proof (find_all_tags _ _ _ W E) as A.
    destruct ts as [|t1 [|t2 ts]].
    - destruct opt; [intros [= <-]; by apply refers_none|].
      destruct (similar_tags similar h sec name); [|done]. destruct (file_path h sec); [|done]. destruct broken eqn:Eb; [|done].
      intros [= <-]. eapply refers_broken; [done|exact A|done|done].
    - intros [= <-]. by apply refers_one.
    - destruct (mapM _ _); [|done]. destruct (file_path h sec); [|done]. destruct broken eqn:Eb; [|done].
      intros [= <-]. eapply refers_broken; [done|exact A|done|done].
  Qed.
  Lemma refers_ref sec name opt l t : wf h → valid h sec → tags_owned h → refers h broken sec name opt l t → ref_tag similar broken h sec name opt l = Ok t.
  Proof.
    intros W V O H. unfold ref_tag. destruct H as [t A|Ho A|defs Hb A Hl Ho];
      destruct (resolve_spec similar h sec name opt l _ W V O A) as (H1 & H2 & H3).
    - by rewrite (H1 t).
    - specialize (H2 eq_refl). rewrite Ho in H2. rewrite Ho. by rewrite H2.
    - destruct defs as [|d1 [|d2 defs]]; [|done|].
      + specialize (H2 eq_refl). destruct opt; [by destruct Ho|]. destruct H2 as (f & sim & -> & _). by rewrite Hb.
      + destruct H3 as (f & ds & locs & -> & _); [cbn; lia|]. by rewrite Hb.
  Qed.

  Lemma partials_cut name (ps : list (string * option content)) :
    match assoc_get name ps with
    | Some o => ∃ before after, ps = before ++ (name, o) :: after ∧ ∀ o', (name, o') ∉ before
    | None => ∀ o, (name, o) ∉ ps
    end.
  Proof.
    induction ps as [|[k o] ps IH]; cbn [assoc_get]; [by intros o ?%elem_of_nil|]. destruct (String.eqb_spec k name) as [->|Hn].
    - exists [], ps. split; [done|]. by intros o' ?%elem_of_nil.
    - destruct (assoc_get name ps) as [o'|].
      + destruct IH as (before & after & -> & H). exists ((k, o) :: before), after. split; [done|].
        intros o'' [[= -> ->]|X]%elem_of_cons; [done|by eapply H].
      + intros o' [[= -> ->]|X]%elem_of_cons; [done|by eapply IH].
  Qed.
  Lemma partials_at name before o after : (∀ o', (name, o') ∉ before) → assoc_get name (before ++ (name, o) :: after) = Some (o : option content).
  Proof.
    intros H. induction before as [|[k o'] before IH]; cbn [assoc_get app]; [by rewrite String.eqb_refl|].
    destruct (String.eqb_spec k name) as [->|]; [destruct (H o'); by left|]. apply IH. intros o'' X. apply (H o''). by right.
  Qed.
  Lemma partials_none name (ps : list (string * option content)) : (∀ o, (name, o) ∉ ps) → assoc_get name ps = None.
  Proof.
    intros H. pose proof (partials_cut name ps) as C. destruct (assoc_get name ps) as [o|]; [|done]. destruct C as (before & after & -> & _).
    destruct (H o). apply elem_of_app. right. by left.
  Qed.

  Lemma content_told c f args v : wf h → content_member similar broken h str c f args = Ok v → says_of h str broken c f args v.
  Proof.
    intros W. unfold content_member. destruct args as [|a [|b args]]; [|destruct a as [| | |nm| | | |j| | | |]; try done|by destruct a].
    - at_name f; [unfold text_val; destruct (str c) as [t|e| |] eqn:Et; try done; intros [= <-]; by constructor|].
      at_name f; [intros [= <-]; apply says_flow, is_flow_spec|].
      destruct c as [t|l|l|l|sec name rc opt lc|cl t|i|i|st b cs ps|t lt ti x|p d|l o|rows|dl|bk k|x]; try done.
      + at_name f; [|done]. intros [= <-]. constructor. by apply shown_all.
      + at_name f; [intros [= <-]; constructor|]. at_name f; [intros [= <-]; constructor|].
        at_name f; [intros [= <-]; constructor; by apply shown_opt_iff|]. at_name f; [intros [= <-]; constructor|].
        at_name f.
        { destruct (ref_tag similar broken h sec name opt lc) as [t|e| |] eqn:Et; try done. apply ref_refers in Et; [|done].
          destruct t as [t|]; intros [= <-]; by constructor. }
        at_name f; [|done]. unfold ref_display. destruct rc as [c|].
        * intros [= <-]. constructor. by apply shown_iff.
        * destruct (ref_tag similar broken h sec name opt lc) as [[t|]|e| |] eqn:Et; try done. apply ref_refers in Et; [|done].
          intros [= <-]. eapply says_ref_title; [exact Et|]. by apply shown_opt_iff.
      + at_name f; [intros [= <-]; constructor; by apply shown_iff|]. at_name f; [intros [= <-]; constructor|done].
      + at_name f; [intros [= <-]; constructor|done].
      + at_name f; [intros [= <-]; constructor|]. at_name f; [intros [= <-]; constructor|].
        at_name f; [intros [= <-]; constructor; by apply shown_iff|done].
      + at_name f; [intros [= <-]; constructor|]. at_name f; [intros [= <-]; constructor; by apply shown_opt_iff|].
        at_name f; [intros [= <-]; constructor; by apply shown_opt_iff|done].
      + at_name f; [intros [= <-]; constructor|]. at_name f; [intros [= <-]; constructor|done].
      + at_name f; [intros [= <-]; constructor; by apply shown_all|]. at_name f; [intros [= <-]; constructor|done].
      + at_name f; [intros [= <-]; constructor; by apply rows_all|done].
      + at_name f; [intros [= <-]; constructor; by apply shown_iff|done].
    - destruct c as [| | | | | | | |st b cs ps| | | | | | |]; try done. at_name f; [|done]. intros [= <-].
      pose proof (partials_cut nm ps) as C. destruct (assoc_get nm ps) as [o|].
      + destruct C as (before & after & -> & Hn). eapply says_partial; [exact Hn|]. by apply shown_opt_iff.
      + by apply says_no_partial.
  Qed.

  Lemma content_answers c f args v : wf h → tags_owned h → (∀ sec name rc opt l, c = CRef sec name rc opt l → valid h sec) →
    says_of h str broken c f args v → content_member similar broken h str c f args = Ok v.
  Proof.
    intros W O Hv. destruct 1; unfold content_member; cbn [String.eqb Ascii.eqb Bool.eqb]; try done;
      repeat match goal with
      | H : shown _ _ |- _ => apply shown_iff in H as ->
      | H : shown_opt _ _ |- _ => apply shown_opt_iff in H as ->
      | H : Forall2 shown _ _ |- _ => apply shown_all in H as ->
      | H : Forall2 _ _ _ |- _ => apply rows_all in H as ->
      end; try done.
    - unfold text_val. by rewrite H.
    - do 2 f_equal. eapply iff_bool; [apply is_flow_spec|exact H].
    - rewrite (refers_ref _ _ _ _ _ W (Hv _ _ _ _ _ eq_refl) O H). done.
    - rewrite (refers_ref _ _ _ _ _ W (Hv _ _ _ _ _ eq_refl) O H). done.
    - unfold ref_display. rewrite (refers_ref _ _ _ _ _ W (Hv _ _ _ _ _ eq_refl) O H). done.
    - by rewrite partials_at.
    - by rewrite partials_none.
  Qed.

  Lemma member_told v f args w : wf h → (∀ i, v = VSec i → ∃ r, is_top h r ∧ descendant h r i) → mem v f args = Ok w → asked h str broken v f args w.
  Proof.
    intros W Hs. destruct v as [| | | | | |c|i|t|sb df|l|cur sec]; cbn [member]; try done.
    - intros H. constructor. by apply content_told.
    - destruct (h !! i) as [s|] eqn:Hi; [|done]. intros H. destruct (Hs i eq_refl) as (r & T & D). econstructor; [exact Hi|]. by eapply section_told.
    - destruct args; [|done]. at_name f; [intros [= <-]; constructor|]. at_name f; [intros [= <-]; constructor; by apply shown_opt_iff|].
      at_name f; [intros [= <-]; constructor; by apply section_opt_iff|]. at_name f; [intros [= <-]; constructor|].
      at_name f; [intros [= <-]; constructor; by apply shown_opt_iff|done].
    - destruct args; [|done]. at_name f; [intros [= <-]; constructor; by apply shown_iff|].
      at_name f; [intros [= <-]; constructor; by apply shown_iff|done].
    - destruct args; [|done]. at_name f; [intros [= <-]; constructor|]. at_name f; [intros [= <-]; constructor|done].
  Qed.

  Lemma member_answers v f args w : wf h → tags_owned h → (∀ sec name rc opt l, v = VCon (CRef sec name rc opt l) → valid h sec) →
    asked h str broken v f args w → ∃ w', mem v f args = Ok w' ∧ (f ≠ "FindTag" → w' = w).
  Proof.
    intros W O Hv H. destruct H as [i s f args v Hi H|c f args v H|t|t v H|t v H|t|t v H|sb d v H|sb d v H|cur sec|cur sec]; cbn [member].
    - rewrite Hi. by apply section_answers.
    - exists v. split; [|done]. apply content_answers; try done. intros sec name rc opt l ->. by eapply Hv.
    - eauto.
    - apply shown_opt_iff in H as ->. eauto.
    - apply section_opt_iff in H as ->. eauto.
    - eauto.
    - apply shown_opt_iff in H as ->. eauto.
    - apply shown_iff in H as ->. eauto.
    - apply shown_iff in H as ->. eauto.
    - eauto.
    - eauto.
  Qed.
End told.

(** ** Functions *)

Lemma string_of_iff v s : string_of v s ↔ str_val v = Some s.
Proof.
  split; [by intros []|]. destruct v as [| | | | | |[]| | | | |]; try done; intros [= <-]; constructor.
Qed.
Lemma content_of_iff v c : content_of v c ↔ con_of v = Some c.
Proof. split; [by intros []|]. destruct v; try done; intros [= <-]; constructor. Qed.
Lemma eq_bool_iff (b : bool) (P : Prop) c : (b = true ↔ P) → (c = true ↔ P) → b = c.
Proof. apply iff_bool. Qed.
Lemma compared_iff a b c : compared a b c ↔ eq_val a b = Some c.
Proof.
  split.
  - intros [x y d H|x y d H|v w x y d Hv Hw H].
    + cbn. f_equal. eapply iff_bool; [|exact H]. apply Bool.eqb_true_iff.
    + cbn. f_equal. eapply iff_bool; [|exact H]. apply Nat.eqb_eq.
    + assert (eq_val v w = Some (String.eqb x y)) as ->.
      { apply string_of_iff in Hv, Hw. destruct v as [| | | | | |[]| | | | |]; try done; destruct w as [| | | | | |[]| | | | |]; try done; cbn in *; congruence. }
      f_equal. eapply iff_bool; [|exact H]. apply String.eqb_eq.
  - intros H. assert ((∃ x y, a = VBool x ∧ b = VBool y) ∨ (∃ x y, a = VInt x ∧ b = VInt y) ∨ ∃ x y, str_val a = Some x ∧ str_val b = Some y ∧ c = String.eqb x y)
      as [(x & y & -> & ->)|[(x & y & -> & ->)|(x & y & Hx & Hy & ->)]].
    { destruct a as [| | | | | |[]| | | | |]; try done; destruct b as [| | | | | |[]| | | | |]; try done; cbn in H; injection H as <-; eauto 10. }
    + injection H as <-. constructor. apply Bool.eqb_true_iff.
    + injection H as <-. constructor. apply Nat.eqb_eq.
    + eapply cmp_string; [by apply string_of_iff|by apply string_of_iff|]. apply String.eqb_eq.
Qed.
Lemma among_iff a l c : among a l c ↔ eq_one a l = Some c.
Proof.
  split.
  - induction 1 as [|b l H|b l c H _ IH]; [done| |]; apply compared_iff in H; cbn [eq_one]; by rewrite H.
  - induction l as [|b l IH]; cbn [eq_one]; [intros [= <-]; constructor|]. destruct (eq_val a b) as [[]|] eqn:E; [| |done].
    + intros [= <-]. apply among_here. by apply compared_iff.
    + intros H. apply among_later; [by apply compared_iff|by apply IH].
Qed.
Lemma address_det h r ext i a u u' : wf h → is_top h r → descendant h r i → address h ext i a u → address h ext i a u' → u = u'.
Proof.
  intros W T D (o & s & Po & Ro & Hs & H) (o' & s' & Po' & Ro' & Hs' & H').
  destruct (owner_partition h r i W T D) as (p & _ & _ & _ & Hu). pose proof (Hu _ Po Ro) as ->. pose proof (Hu _ Po' Ro') as ->.
  assert (s' = s) as -> by congruence. naive_solver.
Qed.
Lemma url_is h r ext t i u : wf h → is_top h r → descendant h r i → t_section t = Some i → address h ext i (t_anchor t) u → tag_url h ext t = Some u.
Proof.
  intros W T D Ht A. destruct (tag_address h r ext t i W T D Ht) as (u' & E & A'). by rewrite (address_det _ _ _ _ _ _ _ W T D A A').
Qed.
Lemma no_newline l : "010"%char ∉ list_ascii_of_string l ↔ no_char "010" l = true.
Proof.
  induction l as [|c l IH]; [split; [done|by intros _ ?%elem_of_nil]|]. cbn [list_ascii_of_string]. rewrite not_elem_of_cons, IH. unfold no_char. cbn [sforall].
  rewrite andb_true_iff, negb_true_iff, Ascii.eqb_neq. split; intros [? ?]; split; congruence.
Qed.
Lemma join_lines_app p a s : no_char "010" a = true → join_lines p (a +:+ s) = a +:+ join_lines p s.
Proof.
  induction a as [|c a IH]; [done|]. unfold no_char. cbn [sforall]. rewrite andb_true_iff, negb_true_iff. intros [Hc Ha].
  change (String c a +:+ s) with (String c (a +:+ s)). cbn [join_lines]. rewrite Hc. by rewrite IH.
Qed.
Lemma join_lines_join p l : Forall (λ x, no_char "010" x = true) l →
  join_lines p (sjoin (String "010" "") l) = sjoin (String "010" p) l.
Proof.
  induction l as [|x l IH]; intros H; [done|]. apply Forall_cons in H as [Hx Hl]. destruct l as [|y l].
  - cbn [sjoin]. pose proof (join_lines_app p x "" Hx) as E. rewrite sapp_nil_r in E. rewrite E. cbn [join_lines]. by rewrite sapp_nil_r.
  - rewrite !sjoin_cons, join_lines_app by done. f_equal. change (String "010" "" +:+ ?z) with (String "010" z). cbn [join_lines].
    rewrite Ascii.eqb_refl, IH by done. done.
Qed.
Lemma ssplit_lines s : Forall (λ x, no_char "010" x = true) (ssplit "010" s) ∧ ssplit "010" s ≠ [].
Proof.
  induction s as [|c s [IH1 IH2]]; cbn [ssplit]; [split; [by constructor|done]|]. destruct (Ascii.eqb_spec c "010") as [->|Hc].
  - split; [by constructor|done].
  - destruct (ssplit "010" s) as [|x l] eqn:E; [done|]. apply Forall_cons in IH1 as [Hx Hl]. split; [|done]. constructor; [|done].
    unfold no_char in *. cbn [sforall]. rewrite Hx. apply Ascii.eqb_neq in Hc. by rewrite Hc.
Qed.

Section applies.
  Context (h : heap) (str : content → outcome error string) (ext : string) (html : bool) (render : content → rendered).
  Notation app_f := (apply_func h str ext html render).
  (** Tags and sections that are passed are of the book whose top is [r]. *)
  Definition passed (r : nat) (args : list val) : Prop :=
    (∀ t, VTag t ∈ args → ∃ i, t_section t = Some i ∧ descendant h r i) ∧ (∀ i, VSec i ∈ args → descendant h r i).

  Ltac at_name f := match goal with |- context [String.eqb f ?x] => destruct (String.eqb_spec f x) as [->|_] end.

  Lemma header_is i d a : wf h → valid h i → nsteps (λ x y, parent_of h x y ∧ ∀ xs, h !! x = Some xs → s_reset xs = false) d a i →
    (is_top h a ∨ ∃ p ps, parent_of h p a ∧ h !! p = Some ps ∧ s_reset ps = true) → header_depth h i = Some (Nat.min 6 (S d)).
  Proof.
    intros W V N S. unfold header_depth. rewrite (page_depth_is _ _ _ _ W V N S). cbn [base.mbind option_bind]. cbv zeta. f_equal.
    rewrite Nat.add_1_r. destruct (Nat.ltb_spec 6 (Datatypes.S d)); lia.
  Qed.

  Lemma func_told r f args v : wf h → is_top h r → passed r args → app_f f args = Ok v → applied h str ext html render f args v.
  Proof.
    intros W T [Pt Ps]. assert (∀ i, descendant h r i → valid h i) as Vd.
    { intros i D. eapply descendant_valid; [done| |done]. destruct T as (x & Hx & _). by eapply lookup_lt_Some. }
    assert (∀ e t u, VTag t ∈ args → want (tag_url h e t) VStr = Ok u → ∃ i a, t_section t = Some i ∧ address h e i (t_anchor t) a ∧ u = VStr a) as Url.
    { intros e t u Ht. destruct (Pt t Ht) as (i & Hi & D). destruct (tag_address h r e t i W T D Hi) as (a & -> & A). intros [= <-]. eauto 6. }
    unfold apply_func.
    at_name f.
    { destruct args as [|a [|]]; try done. intros [= <-]. constructor. rewrite negb_true_iff. apply truth_empty. }
    at_name f.
    { destruct args as [|a [|b l]]; try done. destruct (eq_one a (b :: l)) as [c|] eqn:E; [|done]. intros [= <-]. constructor. by apply among_iff. }
    at_name f.
    { destruct args as [|a [|b [|]]]; try done. destruct (eq_val a b) as [c|] eqn:E; [|done]. intros [= <-]. constructor. by apply compared_iff. }
    at_name f.
    { destruct args as [|a [|]]; try done. destruct (str_val a) as [s|] eqn:E.
      - intros [= <-]. constructor. by apply string_of_iff.
      - destruct (items a) as [l|] eqn:E'; [|done]. intros [= <-]. apply ap_len. by apply elements_items. }
    at_name f.
    { destruct args as [|a [|]]; try done. destruct (con_of a) as [c|] eqn:E; [|done]. destruct (render c) as [s|e| |] eqn:Er; try done.
      intros [= <-]. econstructor; [by apply content_of_iff|done]. }
    at_name f.
    { destruct args as [|[| | | | | | | |t| | |] [|]]; try done. intros H. destruct (Url ext t v) as (i & a & Hi & A & ->); [by left|done|]. by econstructor. }
    at_name f.
    { destruct args as [|a [|]]; try done. destruct (con_of a) as [c|] eqn:E; [|done]. destruct (strip_aux c) as [c'|] eqn:Es; [|done].
      intros [= <-]. econstructor; [by apply content_of_iff|done|by apply shown_iff]. }
    destruct html eqn:Eh.
    - at_name f.
      { destruct args as [|a [|]]; try done. destruct (con_of a) as [c|] eqn:E; [|done]. destruct (str c) as [s|e| |] eqn:Er; try done.
        intros [= <-]. econstructor; [done|by apply content_of_iff|done]. }
      at_name f.
      { destruct args as [|a [|]]; try done. destruct (con_of a) as [c|] eqn:E; [|done]. destruct (str c) as [s|e| |] eqn:Er; try done.
        intros [= <-]. econstructor; [done|by apply content_of_iff|done]. }
      at_name f.
      { destruct args as [|[| | | | | | |i| | | |] [|[| | | | | | |j| | | |] [|]]]; try done. intros [= <-]. by constructor. }
      at_name f; [|done]. destruct args as [|[| | | | | | |i| | | |] [|]]; try done.
      assert (valid h i) as V by (apply Vd, Ps; by left). destruct (page_depth_spec h i W V) as (d & a & E & N & S).
      rewrite (header_is i d a W V N S). intros [= <-]. by econstructor.
    - at_name f.
      { destruct args as [|[| | | | | | | |t| | |] [|]]; try done. intros H. destruct (Url "html" t v) as (i & a & Hi & A & ->); [by left|done|]. by econstructor. }
      at_name f; [|done]. destruct args as [|[| | |p| | | | | | | |] [|[| | |s| | | | | | | |] [|]]]; try done. intros [= <-].
      destruct (ssplit_lines s) as [L N]. rewrite <- (sjoin_ssplit "010" s). destruct (ssplit "010" s) as [|line lines]; [done|].
      rewrite join_lines_join by done. constructor; [done|]. eapply Forall_impl; [exact L|]. intros x Hx. by apply no_newline.
  Qed.

  Lemma func_answers r f args v : wf h → is_top h r → passed r args → applied h str ext html render f args v → app_f f args = Ok v.
  Proof.
    intros W T [Pt Ps] H. destruct H as [v b H|a b l c H|a b c H|v s H|v l H|v c s Hv H|t i u Hi A|v c c' w Hv H Hw|v c s Hh Hv H|v c s Hh Hv H|cur sec Hh|i d a Hh N S|t i u Hh Hi A|p line lines Hh L];
      unfold apply_func; cbn [String.eqb Ascii.eqb Bool.eqb].
    - do 2 f_equal. eapply iff_bool; [|exact H]. rewrite negb_true_iff. apply truth_empty.
    - apply among_iff in H. by rewrite H.
    - apply compared_iff in H. by rewrite H.
    - apply string_of_iff in H. by rewrite H.
    - assert (str_val v = None) as -> by (by destruct H as [| | | |]). apply elements_items in H. by rewrite H.
    - apply content_of_iff in Hv. rewrite Hv, H. done.
    - destruct (Pt t) as (i' & Hi' & D); [by left|]. assert (i' = i) as -> by congruence. by rewrite (url_is _ _ _ _ _ _ W T D Hi A).
    - apply content_of_iff in Hv. apply shown_iff in Hw as ->. by rewrite Hv, H.
    - rewrite Hh. apply content_of_iff in Hv. by rewrite Hv, H.
    - rewrite Hh. apply content_of_iff in Hv. by rewrite Hv, H.
    - by rewrite Hh.
    - rewrite Hh. rewrite (header_is i d a W) by (done || (eapply descendant_valid; [done| |apply Ps; by left]; destruct T as (x & Hx & _); by eapply lookup_lt_Some)). done.
    - rewrite Hh. destruct (Pt t) as (i' & Hi' & D); [by left|]. assert (i' = i) as -> by congruence. by rewrite (url_is _ _ _ _ _ _ W T D Hi A).
    - rewrite Hh. rewrite join_lines_join; [done|]. eapply Forall_impl; [exact L|]. intros x Hx. by apply no_newline.
  Qed.
End applies.
