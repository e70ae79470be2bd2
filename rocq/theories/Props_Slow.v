(** C47: what is logged about slow invocations. *)
From Coq Require Import Lia.
From stdpp Require Import base tactics relations list.
From Verif Require Import Slow SlowProofs.

(** However invocations interleave, an invocation is reported to be still
    running at most once. *)
Theorem slow_warned_once s i : reachable s → logged s i StillRunning ≤ 1.
Proof.
  intros HI%inv_reachable. change (count (s_log s) i StillRunning ≤ 1).
  destruct (s_invs s !! i) as [v|] eqn:E.
  - pose proof (inv_t _ HI _ _ E) as Ht. unfold okt in Ht. destruct (v_t v); destruct_and?; lia.
  - apply lookup_ge_None in E. rewrite (inv_log _ HI _ _ E). lia.
Qed.
Print Assumptions slow_warned_once.

(** When the invocation has returned, exactly one line says that it ended; it says
    "finished" after the threshold had passed and otherwise that it was fast. *)
Theorem slow_end_once s i v : reachable s → s_invs s !! i = Some v → v_m v = MDone →
  logged s i Fast + logged s i Finished = 1 ∧ (logged s i Finished = 1 ↔ v_timer v = Fired).
Proof.
  intros HI%inv_reachable Hi Hm. pose proof (inv_m _ HI _ _ Hi) as H. unfold okm, said in H.
  rewrite Hm in H. change (count (s_log s) i Fast + count (s_log s) i Finished = 1 ∧
    (count (s_log s) i Finished = 1 ↔ v_timer v = Fired)).
  destruct H as [[(E & -> & ->)|(E & -> & ->)] _]; rewrite E; (split; [done|split; done]).
Qed.
Print Assumptions slow_end_once.

(** Before that none is logged. *)
Theorem slow_end_after s i v : reachable s → s_invs s !! i = Some v → v_m v = MRun →
  logged s i Fast = 0 ∧ logged s i Finished = 0.
Proof.
  intros HI%inv_reachable Hi Hm. pose proof (inv_m _ HI _ _ Hi) as H. unfold okm in H.
  rewrite Hm in H. naive_solver.
Qed.
Print Assumptions slow_end_after.

(** An invocation that was fast is never reported to be still running, not even
    later. *)
Theorem slow_fast_silent s s' i : reachable s → rtc step s s' → 1 ≤ logged s i Fast →
  logged s' i StillRunning = 0.
Proof.
  intros Hr Hs Hl. assert (reachable s') as Hr' by (unfold reachable in *; by etrans).
  apply inv_reachable in Hr' as HI. pose proof (logged_mono _ _ i Fast Hs) as Hle.
  destruct (logged_index s' i Fast HI ltac:(lia)) as [v Hv].
  eapply (stopped_unlogged s' i v HI Hv). pose proof (inv_m _ HI _ _ Hv) as H.
  assert (1 ≤ count (s_log s') i Fast) as Hc by (unfold logged, count in *; lia).
  unfold okm, said in H. destruct (v_m v); destruct_and?; destruct_or?; destruct_and?; try lia; done.
Qed.
Print Assumptions slow_fast_silent.

(** One that took longer is, once the timer's goroutine got to run. *)
Theorem slow_finished_warned s i v : reachable s → s_invs s !! i = Some v →
  1 ≤ logged s i Finished →
  v_t v ≠ TIdle ∧ (v_t v = TDone → logged s i StillRunning = 1).
Proof.
  intros HI%inv_reachable Hi Hl. pose proof (inv_m _ HI _ _ Hi) as Hm. pose proof (inv_t _ HI _ _ Hi) as Ht.
  assert (1 ≤ count (s_log s) i Finished) as Hc by (unfold logged, count in *; lia).
  assert (v_timer v = Fired) as Hf.
  { unfold okm, said in Hm. destruct (v_m v); destruct_and?; destruct_or?; destruct_and?; try lia; done. }
  unfold okt in Ht. rewrite Hf in Ht. split.
  - intros E. rewrite E in Ht. by destruct Ht.
  - intros E. rewrite E in Ht. by destruct Ht as (_ & H & _).
Qed.
Print Assumptions slow_finished_warned.

(** No two goroutines log at the same time. *)
Definition at_log (v : invocation) (w : who) : Prop :=
  match w with TimerSide => v_t v = TLog | MainSide => ∃ b, v_m v = MLog b end.
Theorem slow_exclusive s i j v v' w w' : reachable s →
  s_invs s !! i = Some v → s_invs s !! j = Some v' → at_log v w → at_log v' w' → i = j ∧ w = w'.
Proof.
  intros HI%inv_reachable Hi Hj Hw Hw'.
  assert (∀ k y z, s_invs s !! k = Some y → at_log y z → s_lock s = Some (k, z)) as X.
  { intros k y [] Hk Hy.
    - pose proof (inv_t _ HI _ _ Hk) as H. unfold okt in H. simpl in Hy. rewrite Hy in H. by destruct H as (_ & _ & ?).
    - pose proof (inv_m _ HI _ _ Hk) as H. unfold okm in H. destruct Hy as [b Hy]. rewrite Hy in H. by destruct H as (_ & _ & _ & ?). }
  pose proof (X _ _ _ Hi Hw) as E. pose proof (X _ _ _ Hj Hw') as E'. rewrite E in E'. by inversion E'.
Qed.
Print Assumptions slow_exclusive.

(** The mutex never blocks anyone for good: as long as anything is unfinished a
    step is possible that uses up some of a finite supply, so every invocation that
    has ended gets its line logged. *)
Theorem slow_progress s i v : reachable s → s_invs s !! i = Some v → busy v →
  ∃ s', step s s' ∧ weight s' < weight s.
Proof. apply progress_step. Qed.
Print Assumptions slow_progress.

Local Tactic Notation "go" uconstr(t) := eapply rtc_l; [eapply t; (reflexivity || discriminate)|cbn].

(** Two invocations, a fast one within a slow one. *)
Example ex_slow : ∃ s, reachable s ∧
  s_log s = [(0, StillRunning); (1, Fast); (0, Finished)] ∧
  Forall (λ v, ¬ busy v) (s_invs s).
Proof.
  eexists. split; [|split].
  - unfold reachable, initial. go s_start. go s_start.
    go (s_fire _ 0). go (s_tlock _ 0).
    go (s_tlog _ 0). go (s_tunlock _ 0).
    go (s_end _ 1). go (s_mlock _ 1).
    go (s_stop _ 1). go (s_mlog _ 1).
    go (s_munlock _ 1).
    go (s_end _ 0). go (s_mlock _ 0).
    go (s_late _ 0). go (s_mlog _ 0).
    go (s_munlock _ 0). apply rtc_refl.
  - done.
  - unfold busy. repeat constructor; simpl; naive_solver.
Qed.

(** The report may come too late: "still running" can be logged after the same
    invocation was reported to have finished, because the timer fired just before
    the mutex was taken by the evaluating goroutine. *)
Theorem slow_order_refuted : ∃ s, reachable s ∧ s_log s = [(0, Finished); (0, StillRunning)].
Proof.
  eexists. split.
  - unfold reachable, initial. go s_start.
    go (s_end _ 0). go (s_mlock _ 0).
    go (s_fire _ 0).
    go (s_late _ 0). go (s_mlog _ 0).
    go (s_munlock _ 0).
    go (s_tlock _ 0).
    go (s_tlog _ 0). go (s_tunlock _ 0). apply rtc_refl.
  - done.
Qed.
Print Assumptions slow_order_refuted.
