(** The invariant of the parse cache. *)
From Coq Require Import Lia ZArith.
From stdpp Require Import base tactics relations functions list.
From Verif Require Import Cache.

Section CacheProofs.
  Context {path : Type} `{EqDecision path} {content node : Type}.
  Variable parse : content → option node.

  Notation St := (state path content node).
  Notation step := (step (path:=path) parse advancing).
  Notation reachable := (reachable (path:=path) parse advancing).

  (** Version [j] or a later one of the file parses to the tree. *)
  Definition from (h : list (version content)) (j : nat) (n : node) : Prop :=
    ∃ k t c, j ≤ k ∧ h !! k = Some (Some (t, c)) ∧ parse c = Some n.
  Definition at_time (h : list (version content)) (j : nat) (t : Z) : Prop :=
    ∃ c, h !! j = Some (Some (t, c)).

  Definition ok_load (s : St) (q : pc path node) : Prop :=
    match q with
    | PStat _ | PFail _ => True
    | PLookup p g t | PRead p g t => at_time (s_hist s p) g t
    | PEval p g t n | PStore p g t n => at_time (s_hist s p) g t ∧ from (s_hist s p) g n
    | PDone p g n => from (s_hist s p) g n
    end.

  Record inv (s : St) : Prop := Inv {
    inv_order p i j t t' : i < j → at_time (s_hist s p) i t → at_time (s_hist s p) j t' → (t < t')%Z;
    inv_cache p n t : s_cache s p = Some (n, t) → ∃ i, at_time (s_hist s p) i t ∧ from (s_hist s p) i n;
    inv_loads q : q ∈ s_loads s → ok_load s q
  }.

  Lemma from_app h h' j n : from h j n → from (h ++ h') j n.
  Proof.
    intros (k & t & c & Hk & H & Hp). exists k, t, c. split_and!; [done| |done].
    by apply lookup_app_l_Some.
  Qed.
  Lemma at_time_app h h' j t : at_time h j t → at_time (h ++ h') j t.
  Proof. intros (c & H). exists c. by apply lookup_app_l_Some. Qed.
  Lemma from_mono h i j n : i ≤ j → from h j n → from h i n.
  Proof. intros Hij (k & t & c & Hk & H). exists k, t, c. split; [lia|done]. Qed.

  Lemma mjoin_last {A} (l : list (option A)) x : mjoin (last l) = Some x → l !! pred (length l) = Some (Some x).
  Proof. rewrite last_lookup. destruct (l !! _) as [v|]; [|done]. intros H. by f_equal. Qed.
  Lemma current_at (s : St) p t c : current s p = Some (t, c) →
    s_hist s p !! pred (length (s_hist s p)) = Some (Some (t, c)).
  Proof.
    apply mjoin_last.
  Qed.

  Lemma ok_load_hist (s s' : St) q : (∀ p, ∃ h, s_hist s' p = s_hist s p ++ h) → ok_load s q → ok_load s' q.
  Proof.
    intros Hh. unfold ok_load.
    destruct q as [p|p g t|p g t|p g t n|p g t n|p g n|p]; try done; destruct (Hh p) as [h ->];
      intros H; destruct_and?; split_and?; auto using at_time_app, from_app.
  Qed.

  Lemma inv_goto (s : St) i q : inv s → ok_load s q → inv (goto i q s).
  Proof.
    intros [Ho Hc Hl] Hq. split; simpl; [done|done|].
    intros q' [j Hj]%elem_of_list_lookup. apply list_lookup_insert_Some in Hj as [(-> & <- & _)|[_ Hj]]; [done|].
    apply (Hl q'). by eapply elem_of_list_lookup_2.
  Qed.

  Lemma inv_step s s' : inv s → step s s' → inv s'.
  Proof.
    intros HI Hs.
    assert (∀ i q, s_loads s !! i = Some q → ok_load s q) as Hq.
    { intros i q Hi. apply (inv_loads _ HI). by eapply elem_of_list_lookup_2. }
    destruct Hs as [p v Hv|p|i p t c Hi Hc|i p Hi Hc|i p g t n t' Hi Hc Ht|i p g t Hi Hc|i p g t t' c n Hi Hc Hp
      |i p g t Hi Hc|i p g t n Hi|i p g t n Hi|i p g t n Hi];
      try (apply Hq in Hi as Hok; simpl in Hok).
    - assert (∀ p', ∃ h, <[p:=s_hist s p ++ [v]]> (s_hist s) p' = s_hist s p' ++ h) as Hh.
      { intros p'. destruct (decide (p = p')) as [->|Hne].
        - rewrite fn_lookup_insert. eauto.
        - rewrite fn_lookup_insert_ne by done. exists []. by rewrite app_nil_r. }
      destruct HI as [Ho Hc Hl]. split; simpl.
      + intros p' i j t t' Hij. destruct (decide (p = p')) as [->|Hne].
        2:{ rewrite fn_lookup_insert_ne by done. by apply Ho. }
        rewrite fn_lookup_insert. intros [c H1] [c' H2].
        pose proof (lookup_lt_Some _ _ _ H2) as Hlt. rewrite app_length in Hlt. simpl in Hlt.
        rewrite lookup_app_l in H1 by lia.
        apply lookup_app_Some in H2 as [H2|[Hge H2]].
        * eapply (Ho p' i j); [done|by exists c|by exists c'].
        * apply list_lookup_singleton_Some in H2 as [_ ->]. simpl in Hv. eapply Hv.
          eapply elem_of_list_lookup_2, H1.
      + intros p' n t H. destruct (Hc _ _ _ H) as (i & H1 & H2). destruct (Hh p') as [h ->].
        exists i. split; [by apply at_time_app|by apply from_app].
      + intros q H. eapply (ok_load_hist s); [done|by apply Hl].
    - destruct HI as [Ho Hc Hl]. split; simpl; [done|done|].
      intros q [H|H]%elem_of_app; [by apply (Hl q)|]. by apply elem_of_list_singleton in H as ->.
    - apply inv_goto; [done|]. simpl. exists c. by apply current_at.
    - by apply inv_goto.
    - apply inv_goto; [done|]. simpl. split; [done|].
      destruct (inv_cache _ HI _ _ _ Hc) as (j & Hj & Hf). eapply from_mono; [|exact Hf].
      destruct (decide (g ≤ j)); [done|]. pose proof (inv_order _ HI p j g t' t) as X. exfalso.
      specialize (X ltac:(lia) Hj Hok). lia.
    - by apply inv_goto.
    - apply inv_goto; [done|]. simpl. split; [done|]. apply current_at in Hc.
      exists (pred (length (s_hist s p))), t', c. split_and!; [|done|done].
      destruct Hok as [c' Hc']. apply lookup_lt_Some in Hc'. lia.
    - by apply inv_goto.
    - by apply inv_goto.
    - by apply inv_goto.
    - destruct Hok as [Ht Hf]. assert (inv (goto i (PDone p g n) s)) as [Ho Hc Hl] by by apply inv_goto.
      split; simpl in *; [done| |done].
      intros p' n' t'. destruct (decide (p = p')) as [->|Hne].
      + rewrite fn_lookup_insert. intros [= <- <-]. eauto.
      + rewrite fn_lookup_insert_ne by done. apply Hc.
  Qed.

  Lemma inv_reachable s : reachable s → inv s.
  Proof.
    unfold Cache.reachable. intros H. assert (inv initial → inv s) as X.
    { induction H as [|s1 s2 s3 Hs _ IH]; [done|]. intros HI. apply IH. by eapply inv_step. }
    apply X. split; simpl; [|done|].
    - intros p i j t t' _ [c Hc]. by rewrite lookup_nil in Hc.
    - intros q Hq. by apply elem_of_nil in Hq.
  Qed.

  (** The ghost number is a version that was current after the load began. *)
  Definition since (m : nat) (p : path) (q : pc path node) : Prop :=
    match q with
    | PStat p' | PFail p' => p' = p
    | PLookup p' g _ | PRead p' g _ | PEval p' g _ _ | PStore p' g _ _ | PDone p' g _ => p' = p ∧ m ≤ S g
    end.
  Definition tracked (m : nat) (i : nat) (p : path) (s : St) : Prop :=
    m ≤ length (s_hist s p) ∧ ∃ q, s_loads s !! i = Some q ∧ since m p q.

  Lemma tracked_goto m i p (s : St) j q q' : tracked m i p s → s_loads s !! j = Some q →
    (m ≤ length (s_hist s p) → since m p q → since m p q') → tracked m i p (goto j q' s).
  Proof.
    intros [Hm (x & Hx & Hs)] Hj Hq. split; [done|]. simpl. destruct (decide (i = j)) as [->|Hne].
    - exists q'. rewrite list_lookup_insert by (by eapply lookup_lt_Some). simplify_eq. auto.
    - exists x. by rewrite list_lookup_insert_ne.
  Qed.

  Lemma tracked_step ok m i p s s' : tracked m i p s → Cache.step (path:=path) parse ok s s' → tracked m i p s'.
  Proof.
    intros HT Hs. destruct Hs as [p' v Hv|p'|j p' t c Hi Hc|j p' Hi Hc|j p' g t n t' Hi Hc Ht|j p' g t Hi Hc|j p' g t t' c n Hi Hc Hp
      |j p' g t Hi Hc|j p' g t n Hi|j p' g t n Hi|j p' g t n Hi]; try (eapply tracked_goto; [done..|simpl; naive_solver]).
    - destruct HT as [Hm H]. split; [|done]. simpl. etrans; [exact Hm|].
      destruct (decide (p' = p)) as [->|].
      + rewrite fn_lookup_insert, app_length. lia.
      + by rewrite fn_lookup_insert_ne.
    - destruct HT as [Hm (q & Hq & H)]. split; [done|]. exists q. simpl. split; [|done]. by apply lookup_app_l_Some.
    - eapply tracked_goto; [done..|]. simpl. intros Hm ->. split; [done|]. lia.
  Qed.

  Lemma tracked_steps ok m i p s s' : tracked m i p s → rtc (Cache.step (path:=path) parse ok) s s' → tracked m i p s'.
  Proof. intros HT H. induction H; [done|]. eauto using tracked_step. Qed.
End CacheProofs.
