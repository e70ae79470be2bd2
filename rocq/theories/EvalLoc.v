(** Which location a method sees in [Section.InvokeLocation]. *)
From Coq Require Import Ascii String.
From stdpp Require Import base tactics relations strings list.
From Verif Require Import GoBase Ast Content ContentSpec ContentProofs Section TreeSpec TreeProofs TagProofs QueryProofs
  Evaluate EvalProofs EvalFrame EvalInv EvalSpec EvalTheory EvalFail StrProofs Paths EvalMore BaseInv.
Local Open Scope string_scope.
Local Open Scope list_scope.

(** The locations of the invocations in a tree. *)
Fixpoint locs (nd : node) : list loc :=
  match nd with
  | NString _ => []
  | NSeq l => flat_map locs l
  | NPara lines | NPre lines => flat_map (flat_map locs) lines
  | NInvoke _ args l => l :: flat_map locs args
  end.

Definition invloc_of (s : st) (self : nat) : option loc := s_invloc <$> st_heap s !! self.

Lemma invloc_upd s i f self : (∀ x, s_invloc (f x) = s_invloc x) → invloc_of (upd_st i f s) self = invloc_of s self.
Proof.
  intros Hf. unfold invloc_of, upd_st. simpl. rewrite upd_lookup. destruct (decide (i = self)); [|done].
  destruct (st_heap s !! self); simpl; [by rewrite Hf|done].
Qed.

(** Method bodies leave it alone. *)
Lemma op_invloc E self o s : invloc_of (fst (run_op E self o s)) self = invloc_of s self.
Proof.
  destruct o; simpl; try (by apply (invloc_upd s)).
  - unfold mbind, mheap, mlift. simpl. destruct (title_tags _ _ _ _ _ _) as [ts|e| |]; try done. apply (invloc_upd s).
    intros x. by destruct (set_title_rest self title l ts x) as (_ & _ & _ & _ & _ & _ & _ & _ & _ & _ & _ & _ & ? & _).
Qed.

Lemma child_invloc E n self nd path fs s : wf (st_heap s) → valid (st_heap s) self →
  let s2 := fst (eval E n (length (st_heap s)) None nd (child_state self path fs s)) in
  invloc_of s2 self = invloc_of s self ∧ wf (st_heap s2) ∧ length (st_heap s) < length (st_heap s2).
Proof.
  intros Hw Hv s2. assert (frame_facts (length (st_heap s)) (st_heap (child_state self path fs s)) (st_heap s2)) as F.
  { apply eval_frame; [by apply child_wf|]. unfold valid. simpl. rewrite app_length. simpl. lia. }
  unfold valid in Hv. split_and!.
  - unfold invloc_of. rewrite (ff_others _ _ _ F); [|simpl; rewrite app_length; simpl; lia|lia]. simpl. by rewrite lookup_app_l.
  - apply F.
  - pose proof (ff_length _ _ _ F) as Hl. simpl in Hl. rewrite app_length in Hl. simpl in Hl. lia.
Qed.

Lemma evaluate_node_invloc E n self nd fs s : wf (st_heap s) → valid (st_heap s) self →
  invloc_of (fst (evaluate_node (eval E n) self nd fs s)) self = invloc_of s self.
Proof.
  intros Hw Hv. unfold evaluate_node. rewrite (evaluate_section_start _ _ _ _ _ _ (λ i _, mret i)).
  destruct (child_invloc E n self nd "" fs s Hw Hv) as (H & _). unfold mbind.
  destruct (eval E n _ None nd _) as [s2 [[c|]|e| |]]; simpl in *; try done. rewrite <- H. by apply (invloc_upd s2).
Qed.
Lemma evaluate_file_invloc E n self path fs s : wf (st_heap s) → valid (st_heap s) self →
  invloc_of (fst (evaluate_file E (eval E n) (Some self) path fs s)) self = invloc_of s self.
Proof.
  intros Hw Hv. unfold evaluate_file. destruct (e_fs E path) as [[mt parsed]|]; [|done].
  unfold mbind at 1. unfold parse_step.
  destruct (match assoc_get path (st_cache s) with Some (n1, t) => _ | None => _ end) as [nd|e| |]; try done.
  rewrite (evaluate_section_start _ _ _ _ _ _ (λ i _ s, (St (st_heap s) (assoc_set path (nd, mt) (st_cache s)), Ok i))).
  destruct (child_invloc E n self nd path fs s Hw Hv) as (H & _). unfold mbind.
  destruct (eval E n _ None nd _) as [s2 [[c|]|e| |]]; simpl in *; try done. rewrite <- H. by apply (invloc_upd s2).
Qed.

Lemma attach_invloc self i a l s : i ≠ self → invloc_of (fst (attach_result self a l (inl i) s)) self = invloc_of s self.
Proof.
  intros Hne. simpl. unfold mbind, mheap. destruct l.
  - simpl. destruct (st_heap s !! self) as [x|] eqn:Hx; [|done]. simpl.
    assert (invloc_of (upd_st i (λ c, set_loc c (s_invloc x)) s) self = invloc_of s self) as H by by apply invloc_upd.
    destruct a; simpl; [|done]. rewrite <- H. by apply (invloc_upd (upd_st i _ s)).
  - destruct a; simpl; [|done]. by apply (invloc_upd s).
Qed.

Lemma evaluate_node_child E n self nd fs s s' i : evaluate_node (eval E n) self nd fs s = (s', Ok i) → i = length (st_heap s).
Proof. by intros (s2 & r & _ & -> & _)%evaluate_node_ok. Qed.
Lemma evaluate_file_child E n self path fs s s' i : evaluate_file E (eval E n) (Some self) path fs s = (s', Ok i) → i = length (st_heap s).
Proof. by intros (mt & parsed & nd & s2 & r & _ & _ & _ & -> & _)%evaluate_file_ok. Qed.

Lemma prog_invloc E n self {A} (p : prog A) s : wf (st_heap s) → valid (st_heap s) self →
  invloc_of (fst (run_prog E (eval E n) self p s)) self = invloc_of s self.
Proof.
  assert (∀ B (p : prog B) s, wf (st_heap s) → valid (st_heap s) self →
    wf (st_heap (fst (run_prog E (eval E n) self p s))) ∧ valid (st_heap (fst (run_prog E (eval E n) self p s))) self) as Hf.
  { intros B q s0 Hw Hv. assert (resp (frame self) (run_prog E (eval E n) self q)) as R.
    { apply (resp_prog_rel E frame); [apply frame_eval_rel|apply eval_resp, frame_eval_rel|].
      apply prog_ops_all. intros o. apply run_op_frame. }
    specialize (R s0 Hw Hv). split; [apply R|]. pose proof (ff_length _ _ _ R). unfold valid in *. lia. }
  revert s. induction p as [a| |k IH|name k IH|o k IH|nd fs a l k IH|path fs a k IH]; intros s Hw Hv; simpl; try done.
  - unfold mbind, mheap. by apply IH.
  - by apply IH.
  - pose proof (op_invloc E self o s) as Ho. pose proof (run_op_frame E self o s Hw Hv) as F.
    unfold mbind. destruct (run_op E self o s) as [s1 [u|e| |]]; simpl in *; try done. rewrite IH; [done|apply F|].
    pose proof (ff_length _ _ _ F). unfold valid in *. lia.
  - pose proof (Hf unit (PEvalNode nd fs a l (λ _, PRet tt)) s Hw Hv) as H1. simpl in H1.
    pose proof (evaluate_node_invloc E n self nd fs s Hw Hv) as H2.
    unfold mbind, mcatch in *. destruct (evaluate_node (eval E n) self nd fs s) as [s1 [i|e| |]] eqn:He; simpl in H2; try done.
    + apply evaluate_node_child in He as ->. unfold valid in Hv.
      pose proof (attach_invloc self (length (st_heap s)) a l s1 ltac:(lia)) as H3.
      destruct (attach_result self a l (inl (length (st_heap s))) s1) as [s3 [u|e| |]]; simpl in *; try congruence.
      rewrite IH; [congruence|apply H1..].
    + simpl in *. rewrite IH; [done|apply H1..].
  - pose proof (Hf unit (PEvalFile path fs a (λ _, PRet tt)) s Hw Hv) as H1. simpl in H1.
    pose proof (evaluate_file_invloc E n self path fs s Hw Hv) as H2.
    unfold mbind, mcatch in *. destruct (evaluate_file E (eval E n) (Some self) path fs s) as [s1 [i|e| |]] eqn:He; simpl in H2; try done.
    + apply evaluate_file_child in He as ->. unfold valid in Hv.
      pose proof (attach_invloc self (length (st_heap s)) a false s1 ltac:(lia)) as H3.
      destruct (attach_result self a false (inl (length (st_heap s))) s1) as [s3 [u|e| |]]; simpl in *; try congruence.
      rewrite IH; [congruence|apply H1..].
    + simpl in *. rewrite IH; [done|apply H1..].
Qed.

(** The location after evaluating something: one of its own, or the one before. *)
Section yields.
  Context (E : env) (self : nat).
  Notation body := (runs E self).
  Let ok (s s' : st) (ls : list loc) : Prop := wf (st_heap s) → valid (st_heap s) self →
    wf (st_heap s') ∧ valid (st_heap s') self ∧
    ∃ l, invloc_of s' self = Some l ∧ (invloc_of s self = Some l ∨ l ∈ ls).

  Lemma some_invloc s : valid (st_heap s) self → ∃ l, invloc_of s self = Some l.
  Proof. intros Hv. destruct (lookup_lt_is_Some_2 _ _ Hv) as [x Hx]. exists (s_invloc x). unfold invloc_of. by rewrite Hx. Qed.

  Lemma ok_refl s ls : ok s s ls.
  Proof. intros Hw Hv. destruct (some_invloc s Hv) as [l Hl]. eauto 10. Qed.
  Lemma ok_trans s s1 s2 a b : ok s s1 a → ok s1 s2 b → ok s s2 (a ++ b).
  Proof.
    intros H1 H2 Hw Hv. destruct (H1 Hw Hv) as (Hw1 & Hv1 & l1 & Hl1 & O1). destruct (H2 Hw1 Hv1) as (Hw2 & Hv2 & l2 & Hl2 & O2).
    split; [done|]. split; [done|]. exists l2. split; [done|]. rewrite elem_of_app.
    destruct O2 as [O2|O2]; [|auto]. assert (l2 = l1) as -> by congruence. destruct O1; auto.
  Qed.
  Lemma ok_weaken s s' a b : (∀ l, l ∈ a → l ∈ b) → ok s s' a → ok s s' b.
  Proof. intros Hab H Hw Hv. destruct (H Hw Hv) as (? & ? & l & ? & [?|?]); eauto 10. Qed.

  Lemma yields_locs :
    (∀ s nd s' cs, yields E self body s nd s' cs → ok s s' (locs nd)) ∧
    (∀ s l s' cs, yields_all E self body s l s' cs → ok s s' (flat_map locs l)) ∧
    (∀ s lines s' css, yields_lines E self body s lines s' css → ok s s' (flat_map (flat_map locs) lines)) ∧
    (∀ s ty nd s' v, yields_arg E self body s ty nd s' v → ok s s' (locs nd)) ∧
    (∀ s m i args s' argv, yields_args E self body s m i args s' argv → ok s s' (flat_map locs args)).
  Proof.
    apply yields_mutind.
    - intros. apply ok_refl.
    - done.
    - done.
    - done.
    - intros s fn args l x m s1 argv s' rets cs Hx Hd Ha HY IH Hz [n Hb] Hr.
      change (locs (NInvoke fn args l)) with ([l] ++ flat_map locs args).
      apply (ok_trans s (touch self l s)).
      + intros Hw Hv. pose proof (touch_frame self l s Hw Hv) as F. split; [apply F|].
        split; [pose proof (ff_length _ _ _ F); unfold valid in *; lia|]. exists l. split; [|right; by apply elem_of_list_singleton].
        unfold invloc_of. simpl. by rewrite (upd_lookup_eq _ _ _ _ Hx).
      + intros Hw Hv. destruct (IH Hw Hv) as (Hw1 & Hv1 & l1 & Hl1 & O1).
        pose proof (prog_invloc E n self (m_body m self argv) s1 Hw1 Hv1) as Hp. rewrite Hb in Hp. simpl in Hp.
        assert (resp (frame self) (run_prog E (eval E n) self (m_body m self argv))) as R.
        { apply (resp_prog_rel E frame); [apply frame_eval_rel|apply eval_resp, frame_eval_rel|].
          apply prog_ops_all. intros o. apply run_op_frame. }
        specialize (R s1 Hw1 Hv1). rewrite Hb in R. simpl in R. split; [apply R|].
        split; [pose proof (ff_length _ _ _ R); unfold valid in *; lia|]. exists l1. split; [congruence|done].
    - intros. apply ok_refl.
    - intros s nd l s1 s2 a b _ H1 _ H2. simpl. by eapply ok_trans.
    - intros. apply ok_refl.
    - intros s l lines s1 s2 cs css _ H1 _ H2. simpl. by eapply ok_trans.
    - done.
    - done.
    - intros. apply ok_refl.
    - intros. apply ok_refl.
    - intros s m i ty nd args s1 v s2 vs P _ H1 _ H2. simpl. by eapply ok_trans.
  Qed.

  (** What a method sees: the location of its own invocation or of one nested in
      its arguments. *)
  Lemma invoke_loc s x l m args s1 argv : wf (st_heap s) → st_heap s !! self = Some x →
    yields_args E self body (touch self l s) m 0 args s1 argv →
    ∃ x1, st_heap s1 !! self = Some x1 ∧ (s_invloc x1 = l ∨ s_invloc x1 ∈ flat_map locs args).
  Proof.
    intros Hw Hx Y. assert (valid (st_heap s) self) as Hv by by eapply lookup_lt_Some.
    pose proof (touch_frame self l s Hw Hv) as F.
    destruct (proj2 (proj2 (proj2 (proj2 yields_locs))) _ _ _ _ _ _ Y) as (_ & _ & l1 & Hl1 & O1); [apply F| |].
    { pose proof (ff_length _ _ _ F). unfold valid in *. lia. }
    unfold invloc_of in *. destruct (st_heap s1 !! self) as [x1|]; [|done]. exists x1. split; [done|].
    simpl in *. injection Hl1 as ->. rewrite (upd_lookup_eq _ _ _ _ Hx) in O1. simpl in O1.
    destruct O1 as [[= ->]|O1]; auto.
  Qed.
End yields.

(** ** With the base plugin only, which one exactly *)

(** The location of the invocation that started last when the tree was evaluated in
    a section with location [l]. The argument of [\section] is evaluated in another. *)
Fixpoint last_loc (l : loc) (nd : node) : loc :=
  match nd with
  | NString _ => l
  | NSeq ns => fold_left last_loc ns l
  | NPara lines | NPre lines => fold_left (λ l line, fold_left last_loc line l) lines l
  | NInvoke fn args l' => if String.eqb (method_name fn) "Section" then l' else fold_left last_loc args l'
  end.

Definition takes_node (m : method) : bool :=
  existsb (λ t, match t with TNode => true | _ => false end) (m_in m) ||
  match m_variadic m with Some TNode => true | _ => false end.

Lemma base_takes_node name m : base_method name = Some m → String.eqb name "Section" = false → takes_node m = false.
Proof.
  intros H Hn. unfold base_method in H.
  assert (∀ t, forallb (λ p : string * method, String.eqb (fst p) "Section" || negb (takes_node (snd p))) t = true →
    assoc_get name t = Some m → takes_node m = false) as Hall.
  { induction t as [|[k v] t IH]; [done|]. simpl. intros [H1 H2]%andb_true_iff.
    destruct (String.eqb k name) eqn:Ek; [|auto]. apply String.eqb_eq in Ek as ->. intros [= ->].
    rewrite Hn in H1. by destruct (takes_node m). }
  apply (Hall base_table); [reflexivity|exact H].
Qed.
Lemma takes_node_param m i : takes_node m = false → ¬ param m i TNode.
Proof.
  unfold takes_node. intros [H1 H2]%orb_false_iff [Hp|[_ Hp]].
  - apply not_true_iff_false in H1. apply H1. apply existsb_exists. exists TNode. split; [|done].
    apply elem_of_list_In. by eapply elem_of_list_lookup_2.
  - by rewrite Hp in H2.
Qed.
Lemma base_dispatch E name fs m : base_only E → dispatches E name fs m → base_method name = Some m.
Proof.
  intros [Hb Ho] Hd%dispatches_find. induction fs as [|f fs IH]; [done|]. simpl in Hd.
  destruct f as [|k].
  - rewrite Hb in Hd. destruct (base_method name); [by injection Hd as ->|auto].
  - rewrite Ho in Hd by done. auto.
Qed.

Section exact.
  Context (E : env) (self : nat) (Hb : base_only E).
  Notation body := (runs E self).
  Let to (s s' : st) (f : loc → loc) : Prop := wf (st_heap s) → valid (st_heap s) self →
    wf (st_heap s') ∧ valid (st_heap s') self ∧ invloc_of s' self = f <$> invloc_of s self.

  Lemma to_refl s : to s s id.
  Proof. intros Hw Hv. split_and!; try done. by destruct (invloc_of s self). Qed.
  Lemma to_trans s s1 s2 f g : to s s1 f → to s1 s2 g → to s s2 (λ l, g (f l)).
  Proof.
    intros H1 H2 Hw Hv. destruct (H1 Hw Hv) as (Hw1 & Hv1 & E1). destruct (H2 Hw1 Hv1) as (Hw2 & Hv2 & E2).
    split_and!; try done. rewrite E2, E1. by destruct (invloc_of s self).
  Qed.

  Lemma yields_last :
    (∀ s nd s' cs, yields E self body s nd s' cs → to s s' (λ l, last_loc l nd)) ∧
    (∀ s l s' cs, yields_all E self body s l s' cs → to s s' (fold_left last_loc l)) ∧
    (∀ s lines s' css, yields_lines E self body s lines s' css → to s s' (fold_left (λ l line, fold_left last_loc line l) lines)) ∧
    (∀ s ty nd s' v, yields_arg E self body s ty nd s' v → to s s' (λ l, match ty with TNode => l | _ => last_loc l nd end)) ∧
    (∀ s m i args s' argv, yields_args E self body s m i args s' argv → 
       (takes_node m = false → to s s' (fold_left last_loc args)) ∧ (m = m_section → to s s' id)).
  Proof.
    apply yields_mutind.
    - intros. apply to_refl.
    - done.
    - done.
    - done.
    - intros s fn args l x m s1 argv s' rets cs Hx Hd Ha HY [IH1 IH2] Hz [n Hr] Hret.
      apply base_dispatch in Hd; [|done].
      assert (to (touch self l s) s1 (λ l, if String.eqb (method_name fn) "Section" then l else fold_left last_loc args l)) as Hargs.
      { destruct (String.eqb (method_name fn) "Section") eqn:En.
        - apply String.eqb_eq in En. rewrite En in Hd. apply IH2. by injection Hd as <-.
        - apply IH1. by eapply base_takes_node. }
      intros Hw Hv. pose proof (touch_frame self l s Hw Hv) as F.
      destruct (Hargs) as (Hw1 & Hv1 & E1); [apply F|pose proof (ff_length _ _ _ F); unfold valid in *; lia|].
      pose proof (prog_invloc E n self (m_body m self argv) s1 Hw1 Hv1) as Hp. rewrite Hr in Hp. simpl in Hp.
      assert (resp (frame self) (run_prog E (eval E n) self (m_body m self argv))) as R.
      { apply (resp_prog_rel E frame); [apply frame_eval_rel|apply eval_resp, frame_eval_rel|].
        apply prog_ops_all. intros o. apply run_op_frame. }
      specialize (R s1 Hw1 Hv1). rewrite Hr in R. simpl in R. split; [apply R|].
      split; [pose proof (ff_length _ _ _ R); unfold valid in *; lia|].
      rewrite Hp, E1. unfold invloc_of. simpl. rewrite (upd_lookup_eq _ _ _ _ Hx), Hx. simpl.
      by destruct (String.eqb _ _).
    - intros. apply to_refl.
    - intros s nd l s1 s2 a b _ H1 _ H2. simpl. by eapply to_trans.
    - intros. apply to_refl.
    - intros s l lines s1 s2 cs css _ H1 _ H2. simpl. by eapply to_trans.
    - done.
    - done.
    - intros. apply to_refl.
    - intros. split; intros _; apply to_refl.
    - intros s m i ty nd args s1 v s2 vs P _ H1 _ [H2 H3]. split.
      + intros Hm. simpl. eapply (to_trans _ _ _ (λ l, last_loc l nd)); [|by apply H2].
        destruct ty; try done. by apply takes_node_param in P.
      + intros ->. eapply (to_trans _ _ _ id id); [|by apply H3]. destruct P as [P|[_ P]]; [|done].
        destruct i; simpl in P; [|done]. by injection P as <-.
  Qed.

  Lemma invoke_last s x l m args s1 argv name : wf (st_heap s) → st_heap s !! self = Some x →
    base_method name = Some m → name ≠ "Section" →
    yields_args E self body (touch self l s) m 0 args s1 argv →
    ∃ x1, st_heap s1 !! self = Some x1 ∧ s_invloc x1 = fold_left last_loc args l.
  Proof.
    intros Hw Hx Hm Hn Y. assert (valid (st_heap s) self) as Hv by by eapply lookup_lt_Some.
    pose proof (touch_frame self l s Hw Hv) as F.
    destruct (proj1 (proj2 (proj2 (proj2 (proj2 yields_last))) _ _ _ _ _ _ Y)) as (_ & _ & E1).
    { eapply base_takes_node; [done|]. by apply String.eqb_neq. }
    { apply F. }
    { pose proof (ff_length _ _ _ F). unfold valid in *. lia. }
    unfold invloc_of in *. simpl in E1. rewrite (upd_lookup_eq _ _ _ _ Hx) in E1. simpl in E1.
    destruct (st_heap s1 !! self) as [x1|]; [|done]. exists x1. split; [done|]. simpl in E1. congruence.
  Qed.
End exact.
