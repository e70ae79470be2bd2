(** load/processor.go:59-138: the cache of parsed files, with any number of loads
    running at the same time as files change.

    A file's history is the list of its versions, oldest first; a version is a
    modification time and a content, or nothing if the file does not exist. os.Stat,
    reading a file and each access of the map under parsedL are single steps; that a
    file changes while it is being read is not modelled. *)
From Coq Require Import Lia ZArith.
From stdpp Require Import base tactics relations functions list.

Notation version content := (option (Z * content)%type).

Section Cache.
  Context {path : Type} `{EqDecision path} {content node : Type}.
  Variable parse : content → option node.

  (** Which new version may follow a history. *)
  Variable may_write : list (version content) → version content → Prop.

  (** A load of one file. The number is ghost: the version that os.Stat saw. *)
  Inductive pc :=
  | PStat (p : path)                                (* 60 *)
  | PLookup (p : path) (g : nat) (t : Z)            (* 67-72 *)
  | PRead (p : path) (g : nat) (t : Z)              (* 83-109 *)
  | PEval (p : path) (g : nat) (t : Z) (n : node)   (* 112-127 *)
  | PStore (p : path) (g : nat) (t : Z) (n : node)  (* 130-135 *)
  | PDone (p : path) (g : nat) (n : node)           (* 137 *)
  | PFail (p : path).

  Record state := St {
    s_hist : path → list (version content);
    s_cache : path → option (node * Z);
    s_loads : list pc
  }.

  Definition goto (i : nat) (q : pc) (s : state) : state :=
    St (s_hist s) (s_cache s) (<[i:=q]> (s_loads s)).

  (** The current version. *)
  Definition current (s : state) (p : path) : version content := mjoin (last (s_hist s p)).

  Inductive step (s : state) : state → Prop :=
  | s_write p v : may_write (s_hist s p) v →
      step s (St (<[p:=s_hist s p ++ [v]]> (s_hist s)) (s_cache s) (s_loads s))
  | s_begin p : step s (St (s_hist s) (s_cache s) (s_loads s ++ [PStat p]))
  | s_stat i p t c : s_loads s !! i = Some (PStat p) → current s p = Some (t, c) →
      step s (goto i (PLookup p (pred (length (s_hist s p))) t) s)
  | s_stat_fail i p : s_loads s !! i = Some (PStat p) → current s p = None →
      step s (goto i (PFail p) s)
  (* 79-81: found && !modTime.After(parsed.ModTime) *)
  | s_hit i p g t n t' : s_loads s !! i = Some (PLookup p g t) → s_cache s p = Some (n, t') →
      (t ≤ t')%Z → step s (goto i (PEval p g t n) s)
  | s_miss i p g t : s_loads s !! i = Some (PLookup p g t) →
      (∀ n t', s_cache s p = Some (n, t') → (t' < t)%Z) → step s (goto i (PRead p g t) s)
  | s_read i p g t t' c n : s_loads s !! i = Some (PRead p g t) → current s p = Some (t', c) →
      parse c = Some n → step s (goto i (PEval p g t n) s)
  | s_read_fail i p g t : s_loads s !! i = Some (PRead p g t) →
      (∀ t' c, current s p = Some (t', c) → parse c = None) → step s (goto i (PFail p) s)
  | s_eval i p g t n : s_loads s !! i = Some (PEval p g t n) → step s (goto i (PStore p g t n) s)
  | s_eval_fail i p g t n : s_loads s !! i = Some (PEval p g t n) → step s (goto i (PFail p) s)
  | s_store i p g t n : s_loads s !! i = Some (PStore p g t n) →
      step s (St (s_hist s) (<[p:=Some (n, t)]> (s_cache s)) (<[i:=PDone p g n]> (s_loads s))).

  Definition initial : state := St (λ _, []) (λ _, None) [].
  Definition reachable (s : state) : Prop := rtc step initial s.

  (** The tree a load works with. *)
  Definition uses (q : pc) : option (path * nat * node) :=
    match q with
    | PEval p g _ n | PStore p g _ n | PDone p g n => Some (p, g, n)
    | _ => None
    end.
End Cache.
Arguments pc : clear implicits.
Arguments state : clear implicits.

(** Modification times that tell every version apart from all earlier ones. *)
Definition advancing {content} (h : list (version content)) (v : version content) : Prop :=
  match v with
  | None => True
  | Some (t, _) => ∀ t' c', Some (t', c') ∈ h → (t' < t)%Z
  end.

(** Modification times that never go backwards. *)
Definition not_backwards {content} (h : list (version content)) (v : version content) : Prop :=
  match v with
  | None => True
  | Some (t, _) => ∀ t' c', Some (t', c') ∈ h → (t' ≤ t)%Z
  end.
