(** lazy.go: goroutines forcing one Lazy, as a state machine. sync.Once is modelled
    after its implementation in Go's standard library:

      func (o *Once) Do(f func()) {
        if atomic.LoadUint32(&o.done) == 0 { o.doSlow(f) }
      }
      func (o *Once) doSlow(f func()) {
        o.m.Lock()
        defer o.m.Unlock()
        if o.done == 0 { defer atomic.StoreUint32(&o.done, 1); f() }
      }

    Every goroutine makes one call of Force. Nothing else writes the fields of the
    Lazy. [fn] may take any time, return any result or panic; a [fn] that itself
    forces the same Lazy would wait for itself and is not modelled. *)
From Coq Require Import Lia.
From stdpp Require Import base tactics relations list.

Section Lazy.
  Context {C E : Type}.

  (** Where a goroutine is in Force (lazy.go:51-57). *)
  Inductive pc :=
  | PLoad                              (* about to load [done] *)
  | PLock                              (* waiting for the mutex *)
  | PCheck                             (* holds the mutex, about to check [done] *)
  | PRun                               (* 53: lazy.fn() is running *)
  | PWrite (c : option C) (e : option E)     (* 53: about to assign lazy.result *)
  | PWriteErr (c : option C) (e : option E)  (* 53: about to assign lazy.err *)
  | PStore (panicking : bool)          (* deferred store of [done] *)
  | PUnlock (panicking : bool)         (* deferred unlock *)
  | PRead                              (* 56: about to read lazy.result *)
  | PReadErr (c : option C)            (* 56: about to read lazy.err *)
  | PRet (c : option C) (e : option E) (* returned *)
  | PDead.                             (* panicked *)

  Record state := St {
    l_done : bool;
    l_owner : option nat;         (* goroutine holding the mutex *)
    l_result : option C;          (* nil is None *)
    l_err : option E;
    l_threads : list pc;
    (* what an observer of [fn] sees *)
    l_runs : nat;                 (* calls of [fn] started *)
    l_out : option (option (option C * option E))  (* last call ended: result, or panic *)
  }.

  Definition initial (n : nat) : state := St false None None None (replicate n PLoad) 0 None.

  Definition goto (i : nat) (p : pc) (s : state) : state :=
    St (l_done s) (l_owner s) (l_result s) (l_err s) (<[i:=p]> (l_threads s)) (l_runs s) (l_out s).

  Inductive step (i : nat) (s : state) : state → Prop :=
  | s_fast : l_threads s !! i = Some PLoad → l_done s = true → step i s (goto i PRead s)
  | s_slow : l_threads s !! i = Some PLoad → l_done s = false → step i s (goto i PLock s)
  | s_lock : l_threads s !! i = Some PLock → l_owner s = None →
      step i s (St (l_done s) (Some i) (l_result s) (l_err s) (<[i:=PCheck]> (l_threads s)) (l_runs s) (l_out s))
  | s_skip : l_threads s !! i = Some PCheck → l_done s = true → step i s (goto i (PUnlock false) s)
  | s_call : l_threads s !! i = Some PCheck → l_done s = false →
      step i s (St (l_done s) (l_owner s) (l_result s) (l_err s) (<[i:=PRun]> (l_threads s)) (S (l_runs s)) (l_out s))
  | s_return c e : l_threads s !! i = Some PRun →
      step i s (St (l_done s) (l_owner s) (l_result s) (l_err s) (<[i:=PWrite c e]> (l_threads s)) (l_runs s)
        (Some (Some (c, e))))
  | s_panic : l_threads s !! i = Some PRun →
      step i s (St (l_done s) (l_owner s) (l_result s) (l_err s) (<[i:=PStore true]> (l_threads s)) (l_runs s)
        (Some None))
  | s_write c e : l_threads s !! i = Some (PWrite c e) →
      step i s (St (l_done s) (l_owner s) c (l_err s) (<[i:=PWriteErr c e]> (l_threads s)) (l_runs s) (l_out s))
  | s_write_err c e : l_threads s !! i = Some (PWriteErr c e) →
      step i s (St (l_done s) (l_owner s) (l_result s) e (<[i:=PStore false]> (l_threads s)) (l_runs s) (l_out s))
  | s_store b : l_threads s !! i = Some (PStore b) →
      step i s (St true (l_owner s) (l_result s) (l_err s) (<[i:=PUnlock b]> (l_threads s)) (l_runs s) (l_out s))
  | s_unlock b : l_threads s !! i = Some (PUnlock b) →
      step i s (St (l_done s) None (l_result s) (l_err s) (<[i:=if b then PDead else PRead]> (l_threads s))
        (l_runs s) (l_out s))
  | s_read : l_threads s !! i = Some PRead → step i s (goto i (PReadErr (l_result s)) s)
  | s_read_err c : l_threads s !! i = Some (PReadErr c) → step i s (goto i (PRet c (l_err s)) s).

  Definition steps (s s' : state) : Prop := rtc (λ s s', ∃ i, step i s s') s s'.
  Definition reachable (n : nat) (s : state) : Prop := steps (initial n) s.

  Definition finished (p : pc) : bool := match p with PRet _ _ | PDead => true | _ => false end.
End Lazy.
Arguments pc : clear implicits.
Arguments state : clear implicits.
