(** stages/evaluate.go:120,165-187: the timer that complains about slow
    invocations. Any number of invocations share the mutex complainL. time.AfterFunc
    runs its function in a goroutine of its own when the timer fires; Stop says
    whether it prevented that.

    What the invocation does in between is not modelled, nor is the text that is
    logged. *)
From Coq Require Import Lia.
From stdpp Require Import base tactics relations list.

Inductive timer := Pending | Fired | Stopped.

(** The timer's goroutine (167-173). *)
Inductive tpc :=
| TIdle      (* not started *)
| TWait      (* 168: waiting for the mutex *)
| TLog       (* 170-172: about to log *)
| TUnlock    (* 169: deferred unlock *)
| TDone.

(** The goroutine that evaluates (165-187). *)
Inductive mpc :=
| MRun       (* the invocation runs *)
| MWait      (* 176: it ended in some way, the deferred function waits for the mutex *)
| MStop      (* 178: about to stop the timer *)
| MLog (stopped : bool)   (* 179-184: about to log *)
| MUnlock    (* 177: deferred unlock *)
| MDone.

Record invocation := Invocation { v_timer : timer; v_t : tpc; v_m : mpc }.

Inductive event := StillRunning | Fast | Finished.
Global Instance event_dec : EqDecision event.
Proof. solve_decision. Defined.

Inductive who := TimerSide | MainSide.

Record state := St {
  s_invs : list invocation;
  s_lock : option (nat * who);
  s_log : list (nat * event)
}.

Inductive step (s : state) : state → Prop :=
| s_start : step s (St (s_invs s ++ [Invocation Pending TIdle MRun]) (s_lock s) (s_log s))
| s_fire i m : s_invs s !! i = Some (Invocation Pending TIdle m) →
    step s (St (<[i:=Invocation Fired TWait m]> (s_invs s)) (s_lock s) (s_log s))
| s_tlock i x m : s_invs s !! i = Some (Invocation x TWait m) → s_lock s = None →
    step s (St (<[i:=Invocation x TLog m]> (s_invs s)) (Some (i, TimerSide)) (s_log s))
| s_tlog i x m : s_invs s !! i = Some (Invocation x TLog m) →
    step s (St (<[i:=Invocation x TUnlock m]> (s_invs s)) (s_lock s) (s_log s ++ [(i, StillRunning)]))
| s_tunlock i x m : s_invs s !! i = Some (Invocation x TUnlock m) →
    step s (St (<[i:=Invocation x TDone m]> (s_invs s)) None (s_log s))
| s_end i x t : s_invs s !! i = Some (Invocation x t MRun) →
    step s (St (<[i:=Invocation x t MWait]> (s_invs s)) (s_lock s) (s_log s))
| s_mlock i x t : s_invs s !! i = Some (Invocation x t MWait) → s_lock s = None →
    step s (St (<[i:=Invocation x t MStop]> (s_invs s)) (Some (i, MainSide)) (s_log s))
| s_stop i t : s_invs s !! i = Some (Invocation Pending t MStop) →
    step s (St (<[i:=Invocation Stopped t (MLog true)]> (s_invs s)) (s_lock s) (s_log s))
| s_late i x t : s_invs s !! i = Some (Invocation x t MStop) → x ≠ Pending →
    step s (St (<[i:=Invocation x t (MLog false)]> (s_invs s)) (s_lock s) (s_log s))
| s_mlog i x t b : s_invs s !! i = Some (Invocation x t (MLog b)) →
    step s (St (<[i:=Invocation x t MUnlock]> (s_invs s)) (s_lock s)
      (s_log s ++ [(i, if b then Fast else Finished)]))
| s_munlock i x t : s_invs s !! i = Some (Invocation x t MUnlock) →
    step s (St (<[i:=Invocation x t MDone]> (s_invs s)) None (s_log s)).

Definition initial : state := St [] None [].
Definition reachable (s : state) : Prop := rtc step initial s.

(** How often something was logged for an invocation. *)
Definition logged (s : state) (i : nat) (e : event) : nat :=
  length (filter (λ x, x = (i, e)) (s_log s)).
