(** Evaluation does not depend on what is in the parse cache, as long as the cache
    holds what the files hold. *)
From Coq Require Import Ascii String Lia.
From stdpp Require Import base tactics relations strings list.
From Verif Require Import GoBase StrProofs Ast Content Section Render RenderSpec WriterProofs Evaluate Collect.

Section cache.
  Context (E : env) (good : string → node → nat → Prop).
  (** What can be read now is good; and what is good and not older than the file is
      what the file holds. *)
  Context (Hnow : ∀ p mt nd, e_fs E p = Some (mt, inl nd) → good p nd mt).
  Context (Hgood : ∀ p nd t mt x, good p nd t → e_fs E p = Some (mt, x) → mt ≤ t → x = inl nd).

  Definition all_good (c : list (string * (node * nat))) : Prop :=
    ∀ p nd t, assoc_get p c = Some (nd, t) → good p nd t.
  Definition alike (s s' : st) : Prop := st_heap s = st_heap s' ∧ all_good (st_cache s) ∧ all_good (st_cache s').
  Definition respects {A} (m : M A) : Prop :=
    ∀ s s', alike s s' → alike (m s).1 (m s').1 ∧ (m s).2 = (m s').2.

  Lemma resp_ret {A} (a : A) : respects (mret a). Proof. by intros s s' H. Qed.
  Lemma resp_fail {A} (o : outcome error A) : respects (mfail o). Proof. by intros s s' H. Qed.
  Lemma resp_lift {A} (o : outcome error A) : respects (mlift o). Proof. by intros s s' H. Qed.
  Lemma resp_opt {A} (o : option A) : respects (mopt o). Proof. destruct o; [apply resp_ret|apply resp_fail]. Qed.
  Lemma resp_heap : respects mheap. Proof. intros s s' H. split; [done|]. simpl. by rewrite (proj1 H). Qed.
  Lemma resp_mod f : respects (mmod f). Proof. intros s s' (H & H1 & H2). split; [|done]. split_and!; [|done..]. simpl. by rewrite H. Qed.
  Lemma resp_upd i f : respects (mupd i f). Proof. apply resp_mod. Qed.
  Lemma resp_bind {A B} (m : M A) (f : A → M B) : respects m → (∀ a, respects (f a)) → respects (mbind m f).
  Proof.
    intros Hm Hf s s' H. destruct (Hm s s' H) as [H1 H2]. unfold mbind.
    destruct (m s) as [t o], (m s') as [t' o']. simpl in *. subst o'. destruct o; [by apply Hf|done..].
  Qed.
  Lemma resp_catch {A} (m : M A) : respects m → respects (mcatch m).
  Proof.
    intros Hm s s' H. destruct (Hm s s' H) as [H1 H2]. unfold mcatch.
    destruct (m s) as [t o], (m s') as [t' o']. simpl in *. subst o'. by destruct o.
  Qed.
  Lemma resp_map {A B} (f : A → M B) l : (∀ a, respects (f a)) → respects (mmap f l).
  Proof. intros Hf. induction l as [|x l IH]; [apply resp_ret|]. apply resp_bind; [apply Hf|]. intros y. apply resp_bind; [apply IH|]. intros. apply resp_ret. Qed.
  Lemma resp_fold {A B} (f : B → A → M B) acc l : (∀ b a, respects (f b a)) → respects (mfold f acc l).
  Proof. intros Hf. revert acc. induction l as [|x l IH]; intros acc; [apply resp_ret|]. apply resp_bind; [apply Hf|]. auto. Qed.

  Hint Resolve resp_ret resp_fail resp_lift resp_opt resp_heap resp_mod resp_upd resp_bind resp_catch resp_map resp_fold : resp.

  Lemma resp_op self o : respects (run_op E self o).
  Proof. destruct o; cbn [run_op]; auto 10 with resp. Qed.

  Lemma resp_alloc p path : respects (alloc p path).
  Proof. intros s s' (H & H1 & H2). unfold alloc. simpl. rewrite H. split; [|done]. by split_and!. Qed.

  (** Reading a file gives what it holds. *)
  Lemma parse_good path mt x s : all_good (st_cache s) → e_fs E path = Some (mt, x) →
    parse_step path mt x s = (s, match x with inl nd => Ok nd | inr e => Err e end).
  Proof.
    intros G Hf. unfold parse_step. f_equal. destruct (assoc_get path (st_cache s)) as [[nd t]|] eqn:Ea; [|done].
    destruct (Nat.ltb_spec t mt) as [|L]; [done|]. by rewrite (Hgood _ _ _ _ _ (G _ _ _ Ea) Hf L).
  Qed.

  Section rec.
    Context (rec : nat → option content → node → M (option content)).
    Context (Hrec : ∀ self acc nd, respects (rec self acc nd)).

    Lemma resp_section self nd fs : respects (evaluate_section rec self nd fs).
    Proof. unfold evaluate_section. apply resp_bind; [auto with resp|]. intros _. apply resp_bind; [apply Hrec|]. intros [c|]; auto with resp. Qed.
    Lemma resp_node p nd fs : respects (evaluate_node rec p nd fs).
    Proof. unfold evaluate_node. apply resp_bind; [apply resp_alloc|]. intros i. apply resp_bind; [apply resp_section|]. auto with resp. Qed.
    Lemma resp_file p path fs : respects (evaluate_file E rec p path fs).
    Proof.
      unfold evaluate_file. destruct (e_fs E path) as [[mt x]|] eqn:Ef; [|apply resp_fail].
      intros s s' H. pose proof H as (_ & G & G').
      assert (∀ B (f : node → M B) s, all_good (st_cache s) →
        mbind (parse_step path mt x) f s = match x with inl nd => f nd s | inr e => (s, Err e) end) as K.
      { intros B f s0 G0. unfold mbind. rewrite (parse_good path mt x s0 G0 Ef). by destruct x. }
      rewrite !K by done. destruct x as [nd|e]; [|done].
      clear G G'. revert s s' H.
      apply resp_bind; [apply resp_alloc|]. intros i. apply resp_bind; [apply resp_section|]. intros _ s s' (H & G & G').
      split; [|done]. split_and!; [done|..]; simpl; intros q nd' t'; rewrite assoc_get_set;
        (destruct (String.eqb_spec path q) as [<-|]; [intros [= <- <-]; by apply Hnow|auto]).
    Qed.
    Lemma resp_attach self a l r : respects (attach_result self a l r).
    Proof.
      unfold attach_result, attach_child. destruct r as [i|e]; [|auto with resp]. apply resp_bind.
      - destruct l; [|auto with resp]. apply resp_bind; [auto with resp|]. intros h. destruct (h !! self); auto with resp.
      - intros _. destruct a; auto with resp.
    Qed.
    Lemma resp_prog {A} self (p : prog A) : respects (run_prog E rec self p).
    Proof.
      induction p; cbn [run_prog]; auto with resp.
      - apply resp_bind; [apply resp_op|auto].
      - apply resp_bind; [apply resp_catch, resp_node|]. intros r. apply resp_bind; [apply resp_attach|auto].
      - apply resp_bind; [apply resp_catch, resp_file|]. intros r. apply resp_bind; [apply resp_attach|auto].
    Qed.
    Lemma resp_convert self ty nd : respects (convert E rec self ty nd).
    Proof.
      destruct ty; cbn [convert]; auto with resp. apply resp_bind; [apply Hrec|]. intros [c|]; auto with resp.
    Qed.
    Lemma resp_results fn l acc rets : respects (handle_results fn l acc rets).
    Proof. unfold handle_results. repeat case_match; auto with resp. Qed.
    Lemma resp_invoke self acc fn args l : respects (visit_invoke E rec self acc fn args l).
    Proof.
      unfold visit_invoke. apply resp_bind; [auto with resp|]. intros _. apply resp_bind; [auto with resp|]. intros h.
      destruct (h !! self) as [s|]; [|auto with resp]. apply resp_bind; [auto with resp|]. intros f.
      destruct (find_method E _ _) as [m|]; [|auto with resp]. destruct (arity_ok m _); [|auto with resp].
      apply resp_bind; [apply resp_map; intros [ty nd]; apply resp_convert|]. intros argv.
      destruct (existsb is_zero argv); [auto with resp|]. apply resp_bind; [apply resp_prog|]. intros rets. apply resp_results.
    Qed.
    Lemma resp_seq self acc l : respects (visit_seq rec self acc l).
    Proof. unfold visit_seq. apply resp_fold. auto. Qed.
    Lemma resp_lines self ls : respects (visit_lines rec self ls).
    Proof. unfold visit_lines. apply resp_bind; [apply resp_map; intros; apply resp_seq|]. auto with resp. Qed.
    Lemma resp_eval_F self acc nd : respects (eval_F E rec self acc nd).
    Proof.
      destruct nd; cbn [eval_F]; auto using resp_seq, resp_invoke with resp.
      - apply resp_bind; [apply resp_lines|]. intros [|c [|]]; auto with resp. destruct (is_flow c); auto with resp.
      - apply resp_bind; [apply resp_lines|]. auto with resp.
    Qed.
  End rec.

  Lemma resp_eval n self acc nd : respects (eval E n self acc nd).
  Proof. revert self acc nd. induction n as [|n IH]; intros self acc nd; cbn [eval]; [apply resp_fail|]. by apply resp_eval_F. Qed.

  Lemma resp_stages ord i : respects (run_stages ord i).
  Proof.
    intros s s' (H & G & G'). unfold run_stages. rewrite <- H.
    destruct (collect _ _ _ _ _) as [[h k]|e| |]; simpl; split; done.
  Qed.

  Lemma resp_load ord n path fs : respects (load E ord n path fs).
  Proof. unfold load, load_file. apply resp_bind; [apply resp_file, resp_eval|]. intros i. apply resp_stages. Qed.
  Lemma resp_load_in ord n p path fs : respects (load_in E ord n p path fs).
  Proof. unfold load_in. apply resp_bind; [apply resp_file, resp_eval|]. intros i. apply resp_stages. Qed.
End cache.
