(** Reasoning principles for the evaluator: preservation of a relation between the
    states before and after, for arbitrary plugins. *)
From Coq Require Import Ascii String.
From stdpp Require Import base tactics relations strings list.
From Verif Require Import GoBase Ast Content Section TreeSpec TreeProofs TagProofs QueryProofs Evaluate.

(** ** Every operation of a plugin program satisfies [P]. *)
Fixpoint prog_ops {A} (P : op → Prop) (p : prog A) : Prop :=
  match p with
  | PRet _ | PPanic => True
  | PHeap k => ∀ h, prog_ops P (k h)
  | PReg _ k => ∀ f, prog_ops P (k f)
  | POp o k => P o ∧ prog_ops P k
  | PEvalNode _ _ _ _ k => ∀ r, prog_ops P (k r)
  | PEvalFile _ _ _ k => ∀ r, prog_ops P (k r)
  end.

(** ** Computations respecting a relation on states *)
Definition resp {A} (R : st → st → Prop) (m : M A) : Prop := ∀ s, R s (fst (m s)).

Section resp.
  Context (R : st → st → Prop).
  Context (Hrefl : ∀ s, R s s) (Htrans : ∀ a b c, R a b → R b c → R a c).

  Lemma resp_ret {A} (a : A) : resp R (mret a).
  Proof. intros s. apply Hrefl. Qed.
  Lemma resp_fail {A} (o : outcome error A) : resp R (mfail o).
  Proof. intros s. apply Hrefl. Qed.
  Lemma resp_lift {A} (o : outcome error A) : resp R (mlift o).
  Proof. intros s. apply Hrefl. Qed.
  Lemma resp_opt {A} (o : option A) : resp R (mopt o).
  Proof. destruct o; intros s; apply Hrefl. Qed.
  Lemma resp_heap : resp R mheap.
  Proof. intros s. apply Hrefl. Qed.

  Lemma resp_bind {A B} (m : M A) (f : A → M B) :
    resp R m → (∀ a, resp R (f a)) → resp R (mbind m f).
  Proof.
    intros Hm Hf s. unfold mbind. specialize (Hm s). destruct (m s) as [s' [a|e| |]]; simpl in *; [|done..].
    eapply Htrans; [done|]. apply Hf.
  Qed.

  Lemma resp_catch {A} (m : M A) : resp R m → resp R (mcatch m).
  Proof. intros Hm s. specialize (Hm s). unfold mcatch. destruct (m s) as [s' [a|e| |]]; done. Qed.

  Lemma resp_map {A B} (f : A → M B) l : (∀ x, x ∈ l → resp R (f x)) → resp R (mmap f l).
  Proof.
    induction l as [|x l IH]; intros Hf; simpl; [apply resp_ret|].
    apply resp_bind; [apply Hf; left|]. intros y. apply resp_bind; [|intros; apply resp_ret].
    apply IH. intros z Hz. apply Hf. by right.
  Qed.

  Lemma resp_fold {A B} (f : B → A → M B) l acc :
    (∀ acc x, x ∈ l → resp R (f acc x)) → resp R (mfold f acc l).
  Proof.
    revert acc. induction l as [|x l IH]; intros acc Hf; simpl; [apply resp_ret|].
    apply resp_bind; [apply Hf; left|]. intros y. apply IH. intros z w Hz. apply Hf. by right.
  Qed.
End resp.

(** The state after allocating a section, and the ways a plugin can use the
    evaluated section. *)
Definition alloc_st (parent : option nat) (path : string) (s : st) : st :=
  St (st_heap s ++ [new_section parent path]) (st_cache s).
Definition upd_st (i : nat) (f : section → section) (s : st) : st :=
  St (upd (st_heap s) i f) (st_cache s).
Definition attach_st (self i : nat) (s : st) : st :=
  upd_st self (λ x, set_children x (s_children x ++ [i])) s.

(** What a relation (indexed by the evaluated section) must satisfy for the
    evaluator to respect it. *)
Record eval_rel (E : env) (R : nat → st → st → Prop) : Prop := EvalRel {
  er_refl : ∀ self s, R self s s;
  er_trans : ∀ self a b c, R self a b → R self b c → R self a c;
  er_invloc : ∀ self l s, R self s (upd_st self (λ x, set_invloc x l) s);
  er_body : ∀ self c s, R self s (upd_st self (λ x, set_body x c) s);
  er_use : ∀ self f s, R self s (upd_st self (use_plugin f) s);
  er_cache : ∀ self s c, R self s (St (st_heap s) c);
  (* a new section is allocated below [self] and evaluated *)
  er_child : ∀ self path s s2, R (length (st_heap s)) (alloc_st (Some self) path s) s2 → R self s s2;
  (* ... and its location is set *)
  er_loc : ∀ self path s s2 l, R (length (st_heap s)) (alloc_st (Some self) path s) s2 →
    R self s (upd_st (length (st_heap s)) (λ x, set_loc x l) s2);
  (* ... and it is added to the children *)
  er_attach : ∀ self path s s2, R (length (st_heap s)) (alloc_st (Some self) path s) s2 →
    R self s (attach_st self (length (st_heap s)) s2);
  er_loc_attach : ∀ self path s s2 l, R (length (st_heap s)) (alloc_st (Some self) path s) s2 →
    R self s (attach_st self (length (st_heap s)) (upd_st (length (st_heap s)) (λ x, set_loc x l) s2));
  (* plugin methods, given that recursive evaluation respects the relation *)
  er_methods : ∀ rec, (∀ self acc nd, resp (R self) (rec self acc nd)) →
    ∀ f name m self argv, e_methods E f name = Some m →
    resp (R self) (run_prog E rec self (m_body m self argv))
}.

Section principle.
  Context (E : env) (R : nat → st → st → Prop) (rec : nat → option content → node → M (option content)).
  Context (Hrefl : ∀ self s, R self s s) (Htrans : ∀ self a b c, R self a b → R self b c → R self a c).
  Context (Hbody : ∀ self c s, R self s (upd_st self (λ x, set_body x c) s)).
  Context (Huse : ∀ self f s, R self s (upd_st self (use_plugin f) s)).
  Context (Hcache : ∀ self s c, R self s (St (st_heap s) c)).
  Context (Hrec : ∀ self acc nd, resp (R self) (rec self acc nd)).

  Lemma resp_evaluate_section self nd fs : resp (R self) (evaluate_section rec self nd fs).
  Proof.
    unfold evaluate_section. apply resp_bind; [by apply Htrans| |].
    - apply resp_fold; [apply Hrefl|by apply Htrans|]. intros _ f _ s. apply Huse.
    - intros _. apply resp_bind; [by apply Htrans|apply Hrec|].
      intros [c|]; [intros s; apply Hbody|apply resp_ret, Hrefl].
  Qed.

  (** A child evaluated from a node: unless nothing happened, a section was
      allocated and evaluated. *)
  Lemma evaluate_node_child self nd fs s :
    ∃ s2, fst (evaluate_node rec self nd fs s) = s2 ∧
      R (length (st_heap s)) (alloc_st (Some self) "" s) s2 ∧
      (∀ i, snd (evaluate_node rec self nd fs s) = Ok i → i = length (st_heap s)).
  Proof.
    eexists; split; [done|].
    unfold evaluate_node, mbind at 1 3, alloc. simpl.
    pose proof (resp_evaluate_section (length (st_heap s)) nd fs (alloc_st (Some self) "" s)) as H.
    unfold mbind. change (St (st_heap s ++ [new_section (Some self) ""]) (st_cache s))
      with (alloc_st (Some self) "" s).
    destruct (evaluate_section rec (length (st_heap s)) nd fs (alloc_st (Some self) "" s)) as [s' [a|e| |]];
      simpl in *; split; try done. intros i ?. by simplify_eq.
  Qed.

  Lemma evaluate_file_child parent path fs s :
    let r := evaluate_file E rec parent path fs s in
    (fst r = s ∧ ∀ i, snd r ≠ Ok i) ∨
    (R (length (st_heap s)) (alloc_st parent path s) (fst r) ∧
      ∀ i, snd r = Ok i → i = length (st_heap s)).
  Proof.
    unfold evaluate_file. destruct (e_fs E path) as [[mtime parsed]|]; [|left; done].
    unfold mbind, parse_step. cbv zeta.
    generalize (match assoc_get path (st_cache s) with
                | Some (n, t) => if t <? mtime then match parsed with inl n => Ok n | inr e => Err e end else Ok n
                | None => match parsed with inl n => Ok n | inr e => Err e end end) as o.
    intros [nd|e| |]; simpl; [|left; done..]. right.
    pose proof (resp_evaluate_section (length (st_heap s)) nd fs (alloc_st parent path s)) as H.
    change (St (st_heap s ++ [new_section parent path]) (st_cache s))
      with (alloc_st parent path s).
    destruct (evaluate_section rec (length (st_heap s)) nd fs (alloc_st parent path s)) as [s' [a|e| |]];
      simpl in *; split; try done.
    - eapply Htrans; [done|apply Hcache].
    - intros i ?. by simplify_eq.
  Qed.
End principle.

Section run.
  Context (E : env) (R : nat → st → st → Prop) (rec : nat → option content → node → M (option content)).
  Context (Hrefl : ∀ self s, R self s s) (Htrans : ∀ self a b c, R self a b → R self b c → R self a c).
  Context (Hbody : ∀ self c s, R self s (upd_st self (λ x, set_body x c) s)).
  Context (Huse : ∀ self f s, R self s (upd_st self (use_plugin f) s)).
  Context (Hcache : ∀ self s c, R self s (St (st_heap s) c)).
  Context (Hchild : ∀ self path s s2, R (length (st_heap s)) (alloc_st (Some self) path s) s2 → R self s s2).
  Context (Hloc : ∀ self path s s2 l, R (length (st_heap s)) (alloc_st (Some self) path s) s2 →
    R self s (upd_st (length (st_heap s)) (λ x, set_loc x l) s2)).
  Context (Hattach : ∀ self path s s2, R (length (st_heap s)) (alloc_st (Some self) path s) s2 →
    R self s (attach_st self (length (st_heap s)) s2)).
  Context (Hla : ∀ self path s s2 l, R (length (st_heap s)) (alloc_st (Some self) path s) s2 →
    R self s (attach_st self (length (st_heap s)) (upd_st (length (st_heap s)) (λ x, set_loc x l) s2))).
  Context (Hrec : ∀ self acc nd, resp (R self) (rec self acc nd)).

  Lemma attach_result_child self path attach setloc s s2 r :
    R (length (st_heap s)) (alloc_st (Some self) path s) s2 →
    (∀ i, r = inl i → i = length (st_heap s)) →
    R self s (fst (attach_result self attach setloc r s2)).
  Proof.
    intros HR Hi. destruct r as [i|e]; simpl; [|by eapply Hchild].
    rewrite (Hi i eq_refl). clear Hi. unfold mbind, mheap, mret.
    destruct setloc; simpl.
    - destruct (st_heap s2 !! self) as [x|]; simpl; [|by eapply Hchild].
      destruct attach; simpl; [by eapply Hla|by eapply Hloc].
    - destruct attach; simpl; [by eapply Hattach|by eapply Hchild].
  Qed.

  Lemma resp_eval_node {B} self nd fs attach setloc (k : nat + error → M B) :
    (∀ r, resp (R self) (k r)) →
    resp (R self) (r <- mcatch (evaluate_node rec self nd fs);; attach_result self attach setloc r;;; k r).
  Proof.
    intros Hk s. destruct (evaluate_node_child R rec Hrefl Htrans Hbody Huse Hrec self nd fs s)
      as (s2 & Hs2 & HR & Hi).
    unfold mbind at 1, mcatch. destruct (evaluate_node rec self nd fs s) as [s' o]; simpl in *; subst s'.
    assert (∀ r : nat + error, (∀ i, r = inl i → i = length (st_heap s)) →
      R self s (fst ((attach_result self attach setloc r;;; k r) s2))) as Hgo.
    { intros r Hr. pose proof (attach_result_child self "" attach setloc s s2 r HR Hr) as Ha.
      unfold mbind. destruct (attach_result self attach setloc r s2) as [s3 [a|e| |]]; simpl in *; [|done..].
      eapply Htrans; [done|apply Hk]. }
    destruct o as [i|e| |]; [apply (Hgo (inl i)); intros ? [= <-]; by apply Hi|by apply (Hgo (inr e))|by eapply Hchild..].
  Qed.

  Lemma resp_eval_file {B} self path fs attach (k : nat + error → M B) :
    (∀ r, resp (R self) (k r)) →
    resp (R self) (r <- mcatch (evaluate_file E rec (Some self) path fs);;
                   attach_result self attach false r;;; k r).
  Proof.
    intros Hk s.
    pose proof (evaluate_file_child E R rec Hrefl Htrans Hbody Huse Hcache Hrec (Some self) path fs s)
      as Hf. simpl in Hf.
    unfold mbind at 1, mcatch. destruct (evaluate_file E rec (Some self) path fs s) as [s2 o]; simpl in *.
    destruct Hf as [[-> Hno]|[HR Hi]].
    { destruct o as [i|e| |]; simpl; [by destruct (Hno i)| |apply Hrefl..].
      unfold mbind. simpl. apply Hk. }
    assert (∀ r : nat + error, (∀ i, r = inl i → i = length (st_heap s)) →
      R self s (fst ((attach_result self attach false r;;; k r) s2))) as Hgo.
    { intros r Hr. pose proof (attach_result_child self path attach false s s2 r HR Hr) as Ha.
      unfold mbind. destruct (attach_result self attach false r s2) as [s3 [a|e| |]]; simpl in *; [|done..].
      eapply Htrans; [done|apply Hk]. }
    destruct o as [i|e| |]; [apply (Hgo (inl i)); intros ? [= <-]; by apply Hi|by apply (Hgo (inr e))|by eapply Hchild..].
  Qed.

  (** A program all of whose operations respect the relation does. *)
  Lemma resp_prog {A} self (p : prog A) :
    prog_ops (λ o, resp (R self) (run_op E self o)) p → resp (R self) (run_prog E rec self p).
  Proof.
    induction p as [a| |k IH|name k IH|o k IH|nd fs a l k IH|path fs a k IH]; simpl; intros Hp.
    - apply resp_ret, Hrefl.
    - apply resp_fail, Hrefl.
    - intros s. unfold mbind, mheap. apply IH, Hp.
    - apply IH, Hp.
    - apply resp_bind; [by apply Htrans|apply Hp|]. intros _. apply IH, Hp.
    - apply resp_eval_node. intros r. apply IH, Hp.
    - apply resp_eval_file. intros r. apply IH, Hp.
  Qed.
End run.

Lemma resp_prog_rel E R rec self {A} (p : prog A) : eval_rel E R →
  (∀ self acc nd, resp (R self) (rec self acc nd)) →
  prog_ops (λ o, resp (R self) (run_op E self o)) p → resp (R self) (run_prog E rec self p).
Proof. intros [] Hrec. by apply resp_prog. Qed.

Lemma find_method_some E fs name m : find_method E fs name = Some m →
  ∃ f, f ∈ fs ∧ e_methods E f name = Some m.
Proof.
  induction fs as [|f fs IH]; simpl; [done|]. destruct (e_methods E f name) eqn:Hf.
  - intros [= <-]. exists f. split; [left|done].
  - intros H. destruct (IH H) as (g & ? & ?). exists g. split; [by right|done].
Qed.

(** The evaluator respects every such relation. *)
Lemma eval_resp E R : eval_rel E R → ∀ n self acc nd, resp (R self) (eval E n self acc nd).
Proof.
  intros HR n. destruct HR as [Hrefl Htrans Hinv Hbody Huse Hcache Hchild Hloc Hatt Hla Hm].
  induction n as [|n IH]; intros self acc nd; simpl; [apply resp_fail, Hrefl|].
  assert (∀ acc l, resp (R self) (visit_seq (eval E n) self acc l)) as Hseq.
  { intros acc' l. apply resp_fold; [apply Hrefl|by apply Htrans|]. intros; apply IH. }
  assert (∀ l, resp (R self) (visit_lines (eval E n) self l)) as Hlines.
  { intros l. apply resp_bind; [by apply Htrans| |intros; apply resp_ret, Hrefl].
    apply resp_map; [apply Hrefl|by apply Htrans|]. intros; apply Hseq. }
  destruct nd as [s|l|l|l|fn args l]; simpl.
  - apply resp_ret, Hrefl.
  - apply Hseq.
  - apply resp_bind; [by apply Htrans|apply Hlines|]. intros [|c [|? ?]]; try apply resp_ret, Hrefl.
    destruct (is_flow c); apply resp_ret, Hrefl.
  - apply resp_bind; [by apply Htrans|apply Hlines|]. intros; apply resp_ret, Hrefl.
  - unfold visit_invoke. apply resp_bind; [by apply Htrans|intros s; apply Hinv|]. intros _.
    apply resp_bind; [by apply Htrans|apply resp_heap, Hrefl|]. intros h.
    destruct (h !! self) as [x|]; [|apply resp_fail, Hrefl].
    apply resp_bind; [by apply Htrans|apply resp_opt, Hrefl|]. intros f.
    destruct (find_method E (s_factories x) (method_name fn)) as [m|] eqn:Hfm; [|apply resp_fail, Hrefl].
    destruct (arity_ok m (length args)); [|apply resp_fail, Hrefl].
    apply resp_bind; [by apply Htrans| |].
    { apply resp_map; [apply Hrefl|by apply Htrans|]. intros [ty nd] _. simpl. destruct ty; simpl.
      - apply resp_bind; [by apply Htrans|apply IH|]. intros [c|]; [|apply resp_fail, Hrefl].
        apply resp_bind; [by apply Htrans|apply resp_heap, Hrefl|]. intros h'.
        apply resp_bind; [by apply Htrans|apply resp_lift, Hrefl|]. intros; apply resp_ret, Hrefl.
      - apply resp_bind; [by apply Htrans|apply IH|]. intros; apply resp_ret, Hrefl.
      - apply resp_ret, Hrefl.
      - apply resp_fail, Hrefl. }
    intros argv. destruct (existsb is_zero argv); [apply resp_fail, Hrefl|].
    apply find_method_some in Hfm as (g & _ & Hg).
    apply resp_bind; [by apply Htrans|by eapply Hm|]. intros rets.
    intros s. unfold handle_results.
    repeat (first [apply Hrefl | match goal with |- context [match ?x with _ => _ end] => destruct x end]).
Qed.
