(** Properties of Lazy content (C38). *)
From Coq Require Import Lia.
From stdpp Require Import base tactics relations list.
From Verif Require Import Lazy LazyProofs.

Section Props.
  Context {C E : Type}.

  (** However many goroutines force it and however they interleave, [fn] is called
      at most once. *)
  Theorem lazy_once n (s : state C E) : reachable n s → l_runs s ≤ 1.
  Proof.
    intros Hr. pose proof (inv_reachable n s Hr) as [Hd Hi Ho Hp].
    destruct (l_done s) eqn:Ed; [destruct (Hd eq_refl) as [-> _]; lia|].
    destruct (l_owner s) as [i|] eqn:Eo; [|destruct (Hi eq_refl eq_refl) as [-> _]; lia].
    destruct (Ho i eq_refl) as [p Hi']. apply Hp in Hi'. destruct p; simpl in Hi'; destruct_and?; try congruence; try lia.
    destruct H0 as [-> _]; [done|lia].
  Qed.

  (** A Force that returns does so after the call of [fn] ended, and returns what
      it returned; if it panicked, it returns nothing (and no error). *)
  Theorem lazy_result n (s : state C E) i c e : reachable n s → l_threads s !! i = Some (PRet c e) →
    l_runs s = 1 ∧ (l_out s = Some (Some (c, e)) ∨ l_out s = Some None ∧ c = None ∧ e = None).
  Proof.
    intros Hr Hi. pose proof (inv_reachable n s Hr) as [Hd _ _ Hp].
    destruct (Hp _ _ Hi) as (_ & Hdone & -> & ->). destruct (Hd Hdone) as (H1 & [[c' e']|] & H2 & H3); simpl in H3.
    - destruct H3 as [<- <-]. auto.
    - destruct H3 as [-> ->]. auto.
  Qed.

  (** All callers get the same. *)
  Theorem lazy_agree n (s : state C E) i j c e c' e' : reachable n s →
    l_threads s !! i = Some (PRet c e) → l_threads s !! j = Some (PRet c' e') → c = c' ∧ e = e'.
  Proof.
    intros Hr Hi Hj. pose proof (inv_reachable n s Hr) as [_ _ _ Hp].
    apply Hp in Hi as (_ & _ & -> & ->). apply Hp in Hj as (_ & _ & -> & ->). done.
  Qed.

  (** No deadlock: as long as a call has not ended, some goroutine can go on; and
      every schedule ends. *)
  Theorem lazy_progress n (s : state C E) : reachable n s →
    (∀ p, p ∈ l_threads s → finished p = true) ∨ ∃ i s', step i s s'.
  Proof.
    intros Hr. pose proof (inv_reachable n s Hr) as Hi.
    destruct (existsb (λ p, negb (finished p)) (l_threads s)) eqn:Ex.
    - right. apply existsb_exists in Ex as (p & Hp & Hf). apply progress; [done|].
      exists p. split; [by apply elem_of_list_In|]. by destruct (finished p).
    - left. intros p Hp. destruct (finished p) eqn:Ef; [done|]. exfalso.
      assert (existsb (λ p, negb (finished p)) (l_threads s) = true); [|congruence].
      apply existsb_exists. exists p. split; [by apply elem_of_list_In|]. by rewrite Ef.
  Qed.
  Theorem lazy_terminates i (s s' : state C E) : step i s s' → total s' < total s.
  Proof. apply total_step. Qed.
End Props.
Print Assumptions lazy_once.
Print Assumptions lazy_result.
Print Assumptions lazy_agree.
Print Assumptions lazy_progress.
Print Assumptions lazy_terminates.

Ltac go i rule := eapply rtc_l; [exists i; eapply rule; reflexivity|simpl].

(** Two goroutines: the second waits while the first runs [fn], and both return
    its result. *)
Example ex_lazy : ∃ s : state nat nat, reachable 2 s ∧ l_threads s = [PRet (Some 7) None; PRet (Some 7) None].
Proof.
  eexists. split.
  - unfold reachable, steps, initial. simpl. go 0 @s_slow. go 1 @s_slow. go 0 @s_lock. go 0 @s_call.
    eapply rtc_l; [exists 0; apply (s_return _ _ (Some 7) None); reflexivity|simpl].
    go 0 @s_write. go 0 @s_write_err. go 0 @s_store. go 0 @s_unlock. go 1 @s_lock. go 1 @s_skip. go 1 @s_unlock.
    go 0 @s_read. go 0 @s_read_err. go 1 @s_read. go 1 @s_read_err. apply rtc_refl.
  - reflexivity.
Qed.

(** If [fn] panics, other callers get neither content nor error: "every Force that
    returns returns that run's result" fails. The renderers then call Visit on the
    nil Content (render/html.go:287-294). *)
Example lazy_panic_refuted : ∃ s : state nat nat, reachable 2 s ∧ l_out s = Some None ∧
  l_threads s = [PDead; PRet None None].
Proof.
  eexists. split; [|split].
  - unfold reachable, steps, initial. simpl. go 0 @s_slow. go 0 @s_lock. go 0 @s_call. go 0 @s_panic.
    go 0 @s_store. go 0 @s_unlock. go 1 @s_fast. go 1 @s_read. go 1 @s_read_err. apply rtc_refl.
  - reflexivity.
  - reflexivity.
Qed.
