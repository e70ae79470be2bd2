(** Invariants of the Lazy state machine. *)
From Coq Require Import Lia.
From stdpp Require Import base tactics relations list.
From Verif Require Import Lazy.

Section Proofs.
  Context {C E : Type}.
  Implicit Types s : state C E.

  (** The fields hold the result of the call [o]; nothing if it panicked. *)
  Definition holds (o : option (option C * option E)) s : Prop :=
    match o with
    | Some (c, e) => l_result s = c ∧ l_err s = e
    | None => l_result s = None ∧ l_err s = None
    end.
  Definition fresh s : Prop := l_runs s = 0 ∧ l_out s = None ∧ l_result s = None ∧ l_err s = None.

  Definition okpc s (i : nat) (p : pc C E) : Prop :=
    match p with
    | PLoad | PLock | PDead => l_owner s ≠ Some i
    | PCheck => l_owner s = Some i ∧ (l_done s = false → fresh s)
    | PRun => l_owner s = Some i ∧ l_done s = false ∧ l_runs s = 1 ∧ l_out s = None ∧
        l_result s = None ∧ l_err s = None
    | PWrite c e => l_owner s = Some i ∧ l_done s = false ∧ l_runs s = 1 ∧ l_out s = Some (Some (c, e)) ∧
        l_err s = None
    | PWriteErr c e => l_owner s = Some i ∧ l_done s = false ∧ l_runs s = 1 ∧ l_out s = Some (Some (c, e)) ∧
        l_result s = c
    | PStore b => l_owner s = Some i ∧ l_done s = false ∧ l_runs s = 1 ∧
        ∃ o, l_out s = Some o ∧ holds o s
    | PUnlock b => l_owner s = Some i ∧ l_done s = true
    | PRead => l_owner s ≠ Some i ∧ l_done s = true
    | PReadErr c => l_owner s ≠ Some i ∧ l_done s = true ∧ c = l_result s
    | PRet c e => l_owner s ≠ Some i ∧ l_done s = true ∧ c = l_result s ∧ e = l_err s
    end.

  Record inv s : Prop := Inv {
    inv_done : l_done s = true → l_runs s = 1 ∧ ∃ o, l_out s = Some o ∧ holds o s;
    inv_idle : l_owner s = None → l_done s = false → fresh s;
    inv_owner i : l_owner s = Some i → is_Some (l_threads s !! i);
    inv_pc i p : l_threads s !! i = Some p → okpc s i p
  }.

  Lemma inv_initial n : inv (initial n).
  Proof.
    split; simpl; try done. intros i p Hi. apply lookup_replicate in Hi as [-> _]. done.
  Qed.

  Definition same_data s s' : Prop :=
    l_done s' = l_done s ∧ l_result s' = l_result s ∧ l_err s' = l_err s ∧ l_runs s' = l_runs s ∧ l_out s' = l_out s.

  (** A step of [i] does not disturb [j]. *)
  Lemma okpc_other s s' i j p : i ≠ j → okpc s j p →
    (l_owner s' = l_owner s ∨ l_owner s = None ∧ l_owner s' = Some i ∨ l_owner s = Some i ∧ l_owner s' = None) →
    (same_data s s' ∨ l_owner s = Some i ∧ l_done s = false) → okpc s' j p.
  Proof.
    intros Hij Hp Ho Hd. unfold same_data in Hd.
    assert (l_owner s ≠ Some j → l_owner s' ≠ Some j) as Hno by (intros ?; destruct Ho as [->|[[? ->]|[? ->]]]; congruence).
    assert (l_owner s = Some j → l_owner s' = Some j ∧ same_data s s') as Hyes.
    { intros E1. destruct Ho as [->|[[? ->]|[? ->]]]; [|congruence|congruence]. split; [done|].
      destruct Hd as [Hd|[? _]]; [done|congruence]. }
    assert (l_done s = true → same_data s s') as Hdone by (intros ?; destruct Hd as [Hd|[_ ?]]; [done|congruence]).
    unfold same_data in *.
    destruct p; simpl in *; auto.
    - destruct Hp as [H1 H2]. destruct (Hyes H1) as [H3 (E1 & E2 & E3 & E4 & E5)]. split; [done|].
      unfold fresh in *. rewrite E1, E2, E3, E4, E5. done.
    - destruct Hp as (H1 & H2). destruct (Hyes H1) as [H3 (E1 & E2 & E3 & E4 & E5)]. rewrite E1, E2, E3, E4, E5. done.
    - destruct Hp as (H1 & H2). destruct (Hyes H1) as [H3 (E1 & E2 & E3 & E4 & E5)]. rewrite E1, E3, E4, E5. done.
    - destruct Hp as (H1 & H2). destruct (Hyes H1) as [H3 (E1 & E2 & E3 & E4 & E5)]. rewrite E1, E2, E4, E5. done.
    - destruct Hp as (H1 & H2). destruct (Hyes H1) as [H3 (E1 & E2 & E3 & E4 & E5)]. unfold holds in *.
      rewrite E1, E2, E3, E4, E5. done.
    - destruct Hp as (H1 & H2). destruct (Hyes H1) as [H3 (E1 & E2 & E3 & E4 & E5)]. by rewrite E1.
    - destruct Hp as (H1 & H2). destruct (Hdone H2) as (E1 & E2 & E3 & E4 & E5). rewrite E1. auto.
    - destruct Hp as (H1 & H2 & H3). destruct (Hdone H2) as (E1 & E2 & E3 & E4 & E5). rewrite E1, E2. auto.
    - destruct Hp as (H1 & H2 & H3 & H4). destruct (Hdone H2) as (E1 & E2 & E3 & E4 & E5). rewrite E1, E2, E3. auto.
  Qed.

  Lemma inv_update s s' i q : inv s → l_threads s' = <[i:=q]> (l_threads s) → is_Some (l_threads s !! i) →
    (l_owner s' = l_owner s ∨ l_owner s = None ∧ l_owner s' = Some i ∨ l_owner s = Some i ∧ l_owner s' = None) →
    (same_data s s' ∨ l_owner s = Some i ∧ l_done s = false) →
    (l_done s' = true → l_runs s' = 1 ∧ ∃ o, l_out s' = Some o ∧ holds o s') →
    (l_owner s' = None → l_done s' = false → fresh s') →
    okpc s' i q → inv s'.
  Proof.
    intros [Hd Hi Ho Hp] Ht Hs Hown Hdat H1 H2 H3. split; [done|done| |].
    - intros j Hj. rewrite Ht. assert (is_Some (l_threads s !! j)) as [x Hx].
      { destruct Hown as [E1|[[E1 E2]|[E1 E2]]]; [apply Ho; congruence|congruence|congruence]. }
      destruct (decide (i = j)) as [-> |].
      + rewrite list_lookup_insert; [eauto|]. by eapply lookup_lt_Some.
      + rewrite list_lookup_insert_ne by done. eauto.
    - intros j p Hj. rewrite Ht in Hj. apply list_lookup_insert_Some in Hj as [(<- & <- & _)|[Hne Hj]]; [done|].
      eapply okpc_other; eauto.
  Qed.

  Lemma inv_step i s s' : inv s → step i s s' → inv s'.
  Proof.
    intros H Hs. pose proof H as [Hd Hi Ho Hp].
    destruct Hs as [H1 H2|H1 H2|H1 H2|H1 H2|H1 H2|c e H1|H1|c e H1|c e H1|b H1|b H1|H1|c H1];
      pose proof (Hp i _ H1) as Hpi; simpl in Hpi;
      (eapply inv_update; [exact H|reflexivity|by eexists| | | | |]); unfold same_data; simpl; auto.
    all: destruct_and?; try congruence; auto 10.
    all: try (intros; congruence).
    all: try (intros Hf; match goal with H : l_done _ = false → _ |- _ => destruct (H Hf) as (F1 & F2 & F3 & F4) end; repeat split; auto).
    - destruct (H3 H2) as (F1 & F2 & F3 & F4). rewrite F1. split_and!; auto.
    - split_and!; auto. exists None. simpl. auto.
    - split_and!; auto. exists (Some (c, e)). simpl. auto.
    - destruct b; simpl; auto.
  Qed.

  Lemma inv_reachable n s : reachable n s → inv s.
  Proof.
    unfold reachable, steps. intros H. remember (initial n) as s0. assert (inv s0) as H0 by (subst; apply inv_initial).
    clear Heqs0. induction H as [|x y z [i Hs] _ IH]; [done|]. apply IH. by eapply inv_step.
  Qed.

  Lemma threads_step i s s' : step i s s' → length (l_threads s') = length (l_threads s).
  Proof. intros []; simpl; by rewrite insert_length. Qed.

  (** Every goroutine takes finitely many steps. *)
  Definition rank (p : pc C E) : nat :=
    match p with
    | PLoad => 11 | PLock => 10 | PCheck => 9 | PRun => 8 | PWrite _ _ => 7 | PWriteErr _ _ => 6
    | PStore _ => 5 | PUnlock _ => 4 | PRead => 3 | PReadErr _ => 2 | PRet _ _ => 0 | PDead => 0
    end.
  Definition total s : nat := sum_list_with rank (l_threads s).
  Lemma total_insert (l : list (pc C E)) i p q : l !! i = Some p → rank q < rank p →
    sum_list_with rank (<[i:=q]> l) < sum_list_with rank l.
  Proof.
    revert i. induction l as [|x l IH]; intros [|i] H Hr; simpl in *; simplify_eq; [lia|].
    specialize (IH i H Hr). lia.
  Qed.
  Lemma total_step i s s' : step i s s' → total s' < total s.
  Proof.
    intros []; unfold total; simpl; eapply total_insert; eauto; simpl; try lia. destruct b; simpl; lia.
  Qed.

  Lemma progress s : inv s → (∃ p, p ∈ l_threads s ∧ finished p = false) → ∃ i s', step i s s'.
  Proof.
    intros [Hd Hi Ho Hp] (p & (j & Hj)%elem_of_list_lookup & Hf).
    destruct (l_owner s) as [i|] eqn:Eo.
    - destruct (Ho i eq_refl) as [q Hq]. pose proof (Hp i q Hq) as Hk. exists i.
      destruct q; simpl in Hk; destruct_and?; try congruence.
      + destruct (l_done s) eqn:Ed; eexists; [by apply s_skip|by apply s_call].
      + eexists. eapply s_panic; eauto.
      + eexists. eapply s_write; eauto.
      + eexists. eapply s_write_err; eauto.
      + eexists. eapply s_store; eauto.
      + eexists. eapply s_unlock; eauto.
    - pose proof (Hp j p Hj) as Hk. exists j. destruct p; simpl in Hk, Hf; destruct_and?; try congruence.
      + destruct (l_done s) eqn:Ed; eexists; [by apply s_fast|by apply s_slow].
      + eexists. eapply s_lock; eauto.
      + eexists. eapply s_read; eauto.
      + eexists. eapply s_read_err; eauto.
  Qed.
End Proofs.
