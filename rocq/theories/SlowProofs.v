(** Invariants of the slow-invocation timer. *)
From Coq Require Import Lia.
From stdpp Require Import base tactics relations list.
From Verif Require Import Slow.

Definition count (l : list (nat * event)) (i : nat) (e : event) : nat := length (filter (λ x, x = (i, e)) l).

Lemma count_app l1 l2 i e : count (l1 ++ l2) i e = count l1 i e + count l2 i e.
Proof. unfold count. by rewrite filter_app, app_length. Qed.
Lemma count_one i e j e' : count [(j, e')] i e = if decide ((j, e') = (i, e)) then 1 else 0.
Proof. unfold count. rewrite filter_cons, filter_nil. by case_decide. Qed.

(** What is known about invocation [i] given the log. *)
Definition okt (l : list (nat * event)) (lock : option (nat * who)) (i : nat) (v : invocation) : Prop :=
  match v_t v with
  | TIdle => v_timer v ≠ Fired ∧ count l i StillRunning = 0 ∧ lock ≠ Some (i, TimerSide)
  | TWait => v_timer v = Fired ∧ count l i StillRunning = 0 ∧ lock ≠ Some (i, TimerSide)
  | TLog => v_timer v = Fired ∧ count l i StillRunning = 0 ∧ lock = Some (i, TimerSide)
  | TUnlock => v_timer v = Fired ∧ count l i StillRunning = 1 ∧ lock = Some (i, TimerSide)
  | TDone => v_timer v = Fired ∧ count l i StillRunning = 1 ∧ lock ≠ Some (i, TimerSide)
  end.
Definition said (l : list (nat * event)) (i : nat) (x : timer) : Prop :=
  x = Stopped ∧ count l i Fast = 1 ∧ count l i Finished = 0 ∨
  x = Fired ∧ count l i Fast = 0 ∧ count l i Finished = 1.
Definition okm (l : list (nat * event)) (lock : option (nat * who)) (i : nat) (v : invocation) : Prop :=
  match v_m v with
  | MRun | MWait => v_timer v ≠ Stopped ∧ count l i Fast = 0 ∧ count l i Finished = 0 ∧ lock ≠ Some (i, MainSide)
  | MStop => v_timer v ≠ Stopped ∧ count l i Fast = 0 ∧ count l i Finished = 0 ∧ lock = Some (i, MainSide)
  | MLog b => v_timer v = (if b then Stopped else Fired) ∧ count l i Fast = 0 ∧ count l i Finished = 0 ∧
      lock = Some (i, MainSide)
  | MUnlock => said l i (v_timer v) ∧ lock = Some (i, MainSide)
  | MDone => said l i (v_timer v) ∧ lock ≠ Some (i, MainSide)
  end.

Record inv (s : state) : Prop := Inv {
  inv_log i e : length (s_invs s) ≤ i → count (s_log s) i e = 0;
  inv_lock i w : s_lock s = Some (i, w) → i < length (s_invs s);
  inv_t i v : s_invs s !! i = Some v → okt (s_log s) (s_lock s) i v;
  inv_m i v : s_invs s !! i = Some v → okm (s_log s) (s_lock s) i v
}.

Lemma inv_initial : inv initial.
Proof. split; simpl; try done. Qed.

(** Other invocations are not affected. *)
Lemma ok_frame l l' k k' i j v : i ≠ j → (∀ e, count l' j e = count l j e) →
  (k' = k ∨ (∃ w, k' = Some (i, w)) ∧ k = None ∨ k' = None ∧ ∃ w, k = Some (i, w)) →
  okt l k j v ∧ okm l k j v → okt l' k' j v ∧ okm l' k' j v.
Proof.
  intros Hij Hc Hk [Ht Hm].
  assert (∀ w, k ≠ Some (j, w) → k' ≠ Some (j, w)) as H1.
  { intros w Hw. destruct Hk as [->|[[[w' ->] _]|[-> _]]]; congruence. }
  assert (∀ w, k = Some (j, w) → k' = Some (j, w)) as H2.
  { intros w Hw. destruct Hk as [->|[[_ ->]|[_ [w' ->]]]]; congruence. }
  unfold okt, okm, said in *. rewrite !Hc. split.
  - destruct (v_t v); destruct_and?; eauto.
  - destruct (v_m v); destruct_and?; eauto 10.
Qed.

Lemma lookup_insert_cases {A} (l : list A) i j x y : <[i:=x]> l !! j = Some y →
  i = j ∧ x = y ∨ i ≠ j ∧ l !! j = Some y.
Proof. intros H%list_lookup_insert_Some. naive_solver. Qed.

Lemma inv_update s l' k' i v v' : inv s → s_invs s !! i = Some v →
  (∀ j e, j ≠ i → count l' j e = count (s_log s) j e) →
  (k' = s_lock s ∨ (∃ w, k' = Some (i, w)) ∧ s_lock s = None ∨ k' = None ∧ ∃ w, s_lock s = Some (i, w)) →
  okt l' k' i v' → okm l' k' i v' → inv (St (<[i:=v']> (s_invs s)) k' l').
Proof.
  intros [Hl Hk Ht Hm] Hi Hc Hk' H1 H2. pose proof (lookup_lt_Some _ _ _ Hi) as Hlt.
  split; simpl; rewrite ?insert_length.
  - intros j e Hj. rewrite Hc by lia. by apply Hl.
  - intros j w ->. destruct Hk' as [E|[[[w' E] _]|[E _]]]; [by eapply Hk|congruence|congruence].
  - intros j y [(<- & <-)|[Hne Hj]]%lookup_insert_cases; [done|].
    eapply (ok_frame (s_log s) l' (s_lock s) k' i j y Hne); [by intros; apply Hc| |by split; auto].
    destruct Hk' as [->|[[[w ->] E]|[-> [w E]]]]; eauto.
  - intros j y [(<- & <-)|[Hne Hj]]%lookup_insert_cases; [done|].
    eapply (ok_frame (s_log s) l' (s_lock s) k' i j y Hne); [by intros; apply Hc| |by split; auto].
    destruct Hk' as [->|[[[w ->] E]|[-> [w E]]]]; eauto.
Qed.

Lemma count_other l i j e e' : j ≠ i → count (l ++ [(i, e')]) j e = count l j e.
Proof. intros Hj. rewrite count_app, count_one, decide_False by congruence. lia. Qed.
Lemma count_same l i e : count (l ++ [(i, e)]) i e = S (count l i e).
Proof. rewrite count_app, count_one, decide_True by done. lia. Qed.
Lemma count_diff l i e e' : e' ≠ e → count (l ++ [(i, e')]) i e = count l i e.
Proof. intros. rewrite count_app, count_one, decide_False by congruence. lia. Qed.

Lemma inv_step s s' : inv s → step s s' → inv s'.
Proof.
  intros HI Hs. destruct Hs as [|i m Hi|i x m Hi Hk|i x m Hi|i x m Hi|i x t Hi|i x t Hi Hk|i t Hi|i x t Hi Hx|i x t b Hi|i x t Hi].
  1: { destruct HI as [Hl Hk Ht Hm]. split; simpl; rewrite ?app_length; simpl.
    - intros i e Hi. apply Hl. lia.
    - intros i w Hw. apply Hk in Hw. lia.
    - intros i v [Hi|[Hi Hv]]%lookup_app_Some; [by apply Ht|].
      apply list_lookup_singleton_Some in Hv as [E <-]. unfold okt; simpl.
      split_and!; [done|apply Hl; lia|]. intros Hw%Hk. lia.
    - intros i v [Hi|[Hi Hv]]%lookup_app_Some; [by apply Hm|].
      apply list_lookup_singleton_Some in Hv as [E <-]. unfold okm; simpl.
      split_and!; [done|apply Hl; lia..|]. intros Hw%Hk. lia. }
  all: pose proof (inv_t _ HI _ _ Hi) as Ht; pose proof (inv_m _ HI _ _ Hi) as Hm;
    eapply (inv_update s _ _ i _ _ HI Hi); [intros; try done; by apply count_other| |..];
    clear HI Hi; try (destruct b); unfold okt, okm, said in *; cbn [v_t v_m v_timer] in *;
    rewrite ?count_same, ?count_diff by done;
    repeat match goal with |- context [count ?l ?i ?e] => let n := fresh in set (n := count l i e) in *; clearbody n end;
    try (by left); try (by right; left; eauto).
  all: try (destruct x); try (destruct t); try (destruct m); try done.
  all: destruct_and?; destruct_or?; destruct_and?; subst; try congruence; try (by split_and!; auto; congruence).
  all: try (by right; right; eauto); try naive_solver.
  by destruct stopped.
Qed.

Lemma inv_reachable s : reachable s → inv s.
Proof.
  unfold reachable. intros H. assert (inv initial → inv s) as X; [|apply X, inv_initial].
  induction H as [|s1 s2 s3 Hs _ IH]; [done|]. intros HI. apply IH. by eapply inv_step.
Qed.

(** Nothing gets stuck: every step but the start of a new invocation uses up a
    bounded supply, and there is such a step as long as anything is left to do. *)
Definition tw (t : tpc) : nat := match t with TIdle => 4 | TWait => 3 | TLog => 2 | TUnlock => 1 | TDone => 0 end.
Definition mw (m : mpc) : nat :=
  match m with MRun => 5 | MWait => 4 | MStop => 3 | MLog _ => 2 | MUnlock => 1 | MDone => 0 end.
Definition vw (v : invocation) : nat := tw (v_t v) + mw (v_m v).
Definition weight (s : state) : nat := sum_list (vw <$> s_invs s).

Lemma sum_insert (l : list invocation) i v v' : l !! i = Some v →
  sum_list (vw <$> <[i:=v']> l) + vw v = sum_list (vw <$> l) + vw v'.
Proof.
  revert i. induction l as [|a l IH]; intros [|i] H; simplify_eq/=; [lia|].
  specialize (IH i H). lia.
Qed.

Lemma weight_step s s' : step s s' → weight s' < weight s ∨ s_invs s' = s_invs s ++ [Invocation Pending TIdle MRun].
Proof.
  intros Hs. destruct Hs as [|i m Hi|i x m Hi Hk|i x m Hi|i x m Hi|i x t Hi|i x t Hi Hk|i t Hi|i x t Hi Hx|i x t b Hi|i x t Hi];
    [by right|left; unfold weight; cbn [s_invs];
    match goal with |- context [<[i:=?v']> _] => pose proof (sum_insert _ _ _ v' Hi) as E end;
    unfold vw in *; cbn [v_t v_m] in *; cbn [tw mw] in *; lia..].
Qed.

Definition busy (v : invocation) : Prop :=
  v_m v ≠ MDone ∨ (v_t v ≠ TIdle ∧ v_t v ≠ TDone).

Lemma progress_step s i v : reachable s → s_invs s !! i = Some v → busy v →
  ∃ s', step s s' ∧ weight s' < weight s.
Proof.
  intros Hr Hi Hb. apply inv_reachable in Hr as HI.
  assert (∃ s', step s s' ∧ s_invs s' ≠ s_invs s ++ [Invocation Pending TIdle MRun]) as (s' & Hs & Hn).
  { assert (∀ j y, s_invs s !! j = Some y → ∀ y', <[j:=y']> (s_invs s) ≠ s_invs s ++ [Invocation Pending TIdle MRun]) as Hd.
    { intros j y Hj y' E. apply (f_equal length) in E. rewrite insert_length, app_length in E. simpl in E. lia. }
    destruct (s_lock s) as [[j [|]]|] eqn:E.
    - destruct (lookup_lt_is_Some_2 (s_invs s) j (inv_lock _ HI _ _ E)) as [[x t m] Hj].
      pose proof (inv_t _ HI _ _ Hj) as Ht. unfold okt in Ht. simpl in Ht. rewrite E in Ht.
      destruct t; destruct_and?; try congruence; eexists; (split; [solve [eapply s_tlog, Hj|eapply s_tunlock, Hj]|by eapply Hd]).
    - destruct (lookup_lt_is_Some_2 (s_invs s) j (inv_lock _ HI _ _ E)) as [[x t m] Hj].
      pose proof (inv_m _ HI _ _ Hj) as Hm. unfold okm in Hm. simpl in Hm. rewrite E in Hm.
      destruct m; destruct_and?; try congruence.
      + destruct x; eexists; (split; [first [by eapply s_stop, Hj|by eapply s_late; [apply Hj|]]|by eapply Hd]).
      + eexists; (split; [eapply s_mlog, Hj|by eapply Hd]).
      + eexists; (split; [eapply s_munlock, Hj|by eapply Hd]).
    - destruct v as [x t m]. pose proof (inv_t _ HI _ _ Hi) as Ht. pose proof (inv_m _ HI _ _ Hi) as Hm.
      unfold okt, okm in *. simpl in *. rewrite E in *. destruct m; destruct_and?; try congruence.
      + eexists; (split; [eapply s_end, Hi|by eapply Hd]).
      + eexists; (split; [by eapply s_mlock; [apply Hi|]|by eapply Hd]).
      + destruct Hb as [Hb|[H1 H2]]; [by simpl in Hb|]. simpl in *.
        destruct t; destruct_and?; try congruence.
        eexists; (split; [by eapply s_tlock; [apply Hi|]|by eapply Hd]). }
  exists s'. split; [done|]. destruct (weight_step _ _ Hs); [done|congruence].
Qed.

Lemma logged_mono s s' i e : rtc step s s' → logged s i e ≤ logged s' i e.
Proof.
  induction 1 as [|s1 s2 s3 Hs _ IH]; [done|]. etrans; [|exact IH]. clear IH.
  change (count (s_log s1) i e ≤ count (s_log s2) i e).
  destruct Hs; cbn [s_log]; rewrite ?count_app; lia.
Qed.

Lemma stopped_unlogged s i v : inv s → s_invs s !! i = Some v → v_timer v = Stopped →
  logged s i StillRunning = 0.
Proof.
  intros HI Hi Hv. pose proof (inv_t _ HI _ _ Hi) as Ht. unfold okt in Ht. rewrite Hv in Ht.
  change (count (s_log s) i StillRunning = 0). destruct (v_t v); destruct_and?; congruence.
Qed.

Lemma logged_index s i e : inv s → 1 ≤ logged s i e → ∃ v, s_invs s !! i = Some v.
Proof.
  intros HI Hl. destruct (s_invs s !! i) eqn:E; [eauto|]. apply lookup_ge_None in E.
  pose proof (inv_log _ HI i e E) as X. change (1 ≤ count (s_log s) i e) in Hl. lia.
Qed.
