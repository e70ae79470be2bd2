(** Evaluation fails exactly as EvalSpec.v's [fails] says. *)
From Coq Require Import Ascii String.
From stdpp Require Import base tactics relations strings list.
From Verif Require Import GoBase Ast Content ContentSpec ContentProofs Section TreeSpec TreeProofs TagProofs QueryProofs
  Evaluate EvalProofs EvalFrame EvalInv EvalSpec EvalTheory.

Lemma file_path_upd h i f : (∀ x, s_path (f x) = s_path x ∧ s_parent (f x) = s_parent x) →
  ∀ j, file_path (upd h i f) j = file_path h j.
Proof.
  intros Hf. unfold file_path, fuel_of. rewrite upd_length. induction (S (length h)) as [|n IH]; intros j; [done|].
  simpl. unfold file_path_F at 1 3. rewrite upd_lookup.
  destruct (decide (i = j)); destruct (h !! j) as [x|]; simpl; try done.
  - destruct (Hf x) as [-> ->]. destruct (String.eqb _ _); [|done]. by destruct (s_parent x).
  - destruct (String.eqb _ _); [|done]. by destruct (s_parent x).
Qed.

Lemma mbind_err {A B} (m : M A) (f : A → M B) s s' e : mbind m f s = (s', Err e) →
  m s = (s', Err e) ∨ ∃ s1 a, m s = (s1, Ok a) ∧ f a s1 = (s', Err e).
Proof. unfold mbind. destruct (m s) as [s1 [a|e'| |]]; try done; [eauto|]. intros [= <- <-]. auto. Qed.

Lemma mbind_err_eq {A B} (m : M A) (f : A → M B) s s' e : m s = (s', Err e) → mbind m f s = (s', Err e).
Proof. unfold mbind. by intros ->. Qed.

Lemma mle_err {A} (m m' : M A) s s' e : mle m m' → m s = (s', Err e) → m' s = (s', Err e).
Proof. intros Hm Hs. rewrite Hm; rewrite Hs; done. Qed.

(** A program itself never fails: errors are among its return values. *)
Lemma run_prog_no_err E rec self {A} (p : prog A) s s' e : run_prog E rec self p s ≠ (s', Err e).
Proof.
  assert (∀ attach setloc r s s', attach_result self attach setloc r s ≠ (s', Err e)) as Hatt.
  { intros attach setloc [i|e'] s0 s0'; simpl; [|done]. intros [He|(s1 & a & H1 & He)]%mbind_err.
    - destruct setloc; [|done]. rewrite (mbind_eq mheap _ _ s0 _ eq_refl) in He. by destruct (_ !! self).
    - by destruct attach. }
  revert s s'. induction p as [a| |k IH|name k IH|o k IH|nd fs a l k IH|path fs a k IH]; intros s s' He; simpl in He; try done.
  - apply mbind_err in He as [He|(s1 & h & [= <- <-] & He)]; [done|]. by eapply IH.
  - by eapply IH.
  - apply mbind_err in He as [He|(s1 & u & _ & He)]; [|by eapply IH].
    destruct o; simpl in He; try done. rewrite (mbind_eq mheap _ _ s _ eq_refl) in He.
    apply mbind_err in He as [He|(s1 & u & _ & He)]; [|done]. unfold mlift in He. injection He as _ He.
    by apply title_tags_no_err in He.
  - apply mbind_err in He as [He|(s1 & u & _ & He)].
    + unfold mcatch in He. by destruct (evaluate_node rec self nd fs s) as [? []].
    + apply mbind_err in He as [He|(s2 & u2 & _ & He)]; [by eapply Hatt|by eapply IH].
  - apply mbind_err in He as [He|(s1 & u & _ & He)].
    + unfold mcatch in He. by destruct (evaluate_file E rec (Some self) path fs s) as [? []].
    + apply mbind_err in He as [He|(s2 & u2 & _ & He)]; [by eapply Hatt|by eapply IH].
Qed.

Section fail.
  Context (E : env) (self : nat).
  Notation body := (runs E self).

  Lemma find_none fs name : find_method E fs name = None ↔ ∀ f, f ∈ fs → e_methods E f name = None.
  Proof.
    induction fs as [|f fs IH]; simpl.
    - split; [|done]. intros _ f Hf. by apply elem_of_nil in Hf.
    - destruct (e_methods E f name) eqn:Hf.
      + split; [done|]. intros H. specialize (H f (elem_of_list_here _ _)). congruence.
      + rewrite IH. split; intros H g; [intros [->|?]%elem_of_cons; auto|intros ?; apply H; by right].
  Qed.

  Lemma seq_fails n : (∀ acc nd s s' e, eval E n self acc nd s = (s', Err e) → fails E self body s nd s' e) →
    ∀ l acc s s' e, visit_seq (eval E n) self acc l s = (s', Err e) → fails_all E self body s l s' e.
  Proof.
    intros Hn. induction l as [|nd l IH]; intros acc s s' e He; unfold visit_seq in *; simpl in He; [done|].
    apply mbind_err in He as [He|(s1 & a & H1 & He)]; [left; by eapply Hn|].
    apply eval_sound in H1 as (cs & Y & _). eapply fails_later; [done|by eapply IH].
  Qed.

  Lemma lines_fail n : (∀ acc nd s s' e, eval E n self acc nd s = (s', Err e) → fails E self body s nd s' e) →
    ∀ lines s s' e, visit_lines (eval E n) self lines s = (s', Err e) → fails_lines E self body s lines s' e.
  Proof.
    intros Hn lines s s' e He. apply mbind_err in He as [He|(s1 & a & H1 & He)]; [|done].
    revert s s' e He. induction lines as [|l lines IH]; intros s s' e He; simpl in He; [done|].
    apply mbind_err in He as [He|(s1 & a & H1 & He)]; [left; by eapply seq_fails|].
    apply mbind_err in He as [He|(s2 & b & H2 & He)]; [|done].
    apply (visit_seq_sound E self n (eval_sound E self n)) in H1 as (cs & Y & _).
    eapply fails_later_line; [done|by eapply IH].
  Qed.

  Lemma args_fail n m : (∀ acc nd s s' e, eval E n self acc nd s = (s', Err e) → fails E self body s nd s' e) →
    ∀ args i s s' e, accepts m (i + length args) →
      mmap (λ p, convert E (eval E n) self (fst p) (snd p)) (types_from m i args) s = (s', Err e) →
      fails_args E self body s m i args s' e.
  Proof.
    intros Hn. induction args as [|nd args IH]; intros i s s' e Ha Hm; [by rewrite types_from_nil in Hm|].
    simpl in Ha. destruct (param_exists m i _ Ha) as [ty Hty].
    rewrite (types_from_cons _ _ _ _ _ Hty) in Hm. simpl in Hm.
    apply mbind_err in Hm as [Hc|(s1 & v & Hc & Hm)].
    - destruct ty as [| | |name]; simpl in Hc; [| |done|].
      + apply mbind_err in Hc as [Hc|(s1 & [c|] & H1 & Hc)]; [..|done].
        * eapply fails_this_arg; [done|by left|by eapply Hn].
        * rewrite (mbind_eq mheap _ _ s1 _ eq_refl) in Hc.
          apply mbind_err in Hc as [Hc|(s3 & t & _ & Hc)]; [|done].
          unfold mlift in Hc. injection Hc as <- Hc. by apply cstring_no_err in Hc.
      + apply mbind_err in Hc as [Hc|(s1 & c & H1 & Hc)]; [|done].
        eapply fails_this_arg; [done|by right|by eapply Hn].
      + injection Hc as <- <-. by constructor.
    - apply mbind_err in Hm as [Hm|(s2 & vs & _ & Hm)]; [|done].
      apply (convert_sound E self n (eval_sound E self n)) in Hc.
      eapply fails_later_arg; [done|done|]. apply IH; [|done]. by rewrite Nat.add_succ_r in Ha.
  Qed.

  Lemma handle_err fn el acc rets s s' e : handle_results fn el acc rets s = (s', Err e) → s' = s ∧
    ((∃ e0, returned_error rets e0 ∧ e = if is_pretty e0 then e0 else EFailed fn e0 el) ∨ bad_signature fn rets e).
  Proof.
    unfold returned_error.
    destruct rets as [|r1 [|r2 [|r3 rest]]]; simpl; [done|..].
    - destruct r1 as [[c|]|[e0|]|t]; intros [= <- <-]; (split; [done|]).
      + left. exists e0. by split; [left|].
      + right. constructor.
    - destruct r2 as [c2|[e0|]|t2]; simpl.
      + intros [= <- <-]. split; [done|]. right. change "booklit.Content"%string with (ret_ty (RCon c2)). by constructor.
      + intros [= <- <-]. split; [done|]. left. exists e0. split; [right; by eexists|done].
      + destruct r1 as [[c|]|e1|t]; intros [= <- <-]; (split; [done|]); right.
        * change "error"%string with (ret_ty (RErr e1)). by constructor.
        * change t with (ret_ty (ROther t)) at 2. by constructor.
      + intros [= <- <-]. split; [done|]. right. change t2 with (ret_ty (ROther t2)) at 2. by constructor.
    - intros [= <- <-]. split; [done|]. right. apply (bad_count fn (r1 :: r2 :: r3 :: rest)). simpl. lia.
  Qed.

  Lemma eval_fails n : ∀ acc nd s s' e, eval E n self acc nd s = (s', Err e) → fails E self body s nd s' e.
  Proof.
    induction n as [|n IH]; intros acc nd s s' e He; simpl in He; [done|].
    destruct nd as [t|l|l|l|fn args l]; simpl in He; [done|..].
    - constructor. by eapply seq_fails.
    - apply mbind_err in He as [He|(s1 & para & _ & He)]; [constructor; by eapply lines_fail|].
      destruct para as [|c [|]]; try done. by destruct (is_flow c).
    - apply mbind_err in He as [He|(s1 & pre & _ & He)]; [|done]. constructor. by eapply lines_fail.
    - unfold visit_invoke in He. rewrite (mbind_eq _ _ _ _ _ (touch_eq self l s)) in He.
      rewrite (mbind_eq mheap _ _ (touch self l s) _ eq_refl) in He.
      destruct (st_heap (touch self l s) !! self) as [x|] eqn:Hx; [|done].
      simpl in Hx. rewrite upd_lookup in Hx. rewrite decide_True in Hx by done.
      destruct (st_heap s !! self) as [x0|] eqn:Hx0; [|done]. injection Hx as <-.
      apply mbind_err in He as [He|(s1 & f & Hf & He)]; [by destruct (file_path _ _)|].
      destruct (file_path (st_heap (touch self l s)) self) as [f'|] eqn:Hf'; [|done]. injection Hf as <- ->.
      assert (call_site self s fn l (ErrLoc f l (S (String.length fn)))) as Hcs.
      { exists f. split; [|done]. rewrite <- Hf'. simpl. symmetry. apply file_path_upd. done. }
      change (s_factories (set_invloc x0 l)) with (s_factories x0) in He.
      destruct (find_method E (s_factories x0) (method_name fn)) as [m|] eqn:Hm.
      2: { injection He as <- <-. eapply fails_undefined; [done|by apply find_none|done]. }
      apply dispatches_find in Hm.
      destruct (arity_ok m (length args)) eqn:Ha.
      2: { injection He as <- <-. unfold is_variadic. eapply fails_arity; [done|done|]. rewrite accepts_ok. congruence. }
      apply accepts_ok in Ha. rewrite <- types_from_0 in He.
      apply mbind_err in He as [He|(s2 & argv & Hargs & He)].
      { eapply fails_arg; [done..|]. by eapply args_fail. }
      apply (args_sound E self n m (eval_sound E self n)) in Hargs; [|done].
      destruct (existsb is_zero argv) eqn:Hz; [done|]. apply not_zero in Hz.
      apply mbind_err in He as [He|(s3 & rets & Hb & He)].
      { exfalso. by apply run_prog_no_err in He. }
      apply handle_err in He as [-> [(e0 & Hr & ->)|Hbad]].
      + eapply fails_returned; [done..|by exists n|done|done].
      + eapply fails_signature; [done..|by exists n|done].
  Qed.

  (** ** Completeness *)

  Lemma yields_valid s nd s' cs : yields E self body s nd s' cs → wf (st_heap s) → valid (st_heap s) self →
    (∃ n, ∀ acc, eval E n self acc nd s = (s', Ok (fold_append acc cs))) ∧ wf (st_heap s') ∧ valid (st_heap s') self.
  Proof.
    intros Y Hw Hv. destruct (proj1 (yields_complete E self) _ _ _ _ Y Hw Hv) as [n Hn]. split; [by exists n|].
    by eapply (eval_valid E self n None nd s s' _ (Hn None)).
  Qed.

  Let P s nd s' e := wf (st_heap s) → valid (st_heap s) self →
    ∃ n, ∀ acc, eval E n self acc nd s = (s', Err e).
  Let P1 s l s' e := wf (st_heap s) → valid (st_heap s) self →
    ∃ n, ∀ acc, visit_seq (eval E n) self acc l s = (s', Err e).
  Let P2 s lines s' e := wf (st_heap s) → valid (st_heap s) self →
    ∃ n, mmap (visit_seq (eval E n) self None) lines s = (s', Err e).
  Let P3 s m i args s' e := wf (st_heap s) → valid (st_heap s) self →
    ∃ n, mmap (λ p, convert E (eval E n) self (fst p) (snd p)) (types_from m i args) s = (s', Err e).

  (** The beginning of an invocation. *)
  Lemma invoke_start n acc fn args l s x m : wf (st_heap s) → valid (st_heap s) self →
    st_heap s !! self = Some x → dispatches E (method_name fn) (s_factories x) m →
    ∃ f, file_path (st_heap s) self = Some f ∧
    visit_invoke E (eval E n) self acc fn args l s =
      (if arity_ok m (length args) then
         argv <- mmap (λ p, convert E (eval E n) self (fst p) (snd p)) (types_from m 0 args);;
         if existsb is_zero argv then mfail Panic
         else rets <- run_prog E (eval E n) self (m_body m self argv);;
              handle_results fn (ErrLoc f l (S (String.length fn))) acc rets
       else mfail (Err (EArity fn (length args) (length (m_in m)) (is_variadic m)))) (touch self l s).
  Proof.
    intros Hw Hv Hx Hd. destruct (wf_file self _ Hw Hv) as [f Hf]. exists f. split; [done|].
    unfold visit_invoke. rewrite (mbind_eq _ _ _ _ _ (touch_eq self l s)).
    rewrite (mbind_eq mheap _ _ (touch self l s) _ eq_refl).
    assert (st_heap (touch self l s) !! self = Some (set_invloc x l)) as -> by (simpl; by rewrite (upd_lookup_eq _ _ _ x)).
    assert (file_path (st_heap (touch self l s)) self = Some f) as ->.
    { rewrite <- Hf. simpl. by apply file_path_upd. }
    rewrite (mbind_eq (mopt (Some f)) _ _ (touch self l s) f eq_refl). simpl. apply dispatches_find in Hd. rewrite Hd.
    by rewrite types_from_0.
  Qed.

  Lemma handle_returned fn el acc rets e s : returned_error rets e →
    handle_results fn el acc rets s = (s, Err (if is_pretty e then e else EFailed fn e el)).
  Proof. by intros [->|[r ->]]. Qed.
  Lemma handle_bad fn el acc rets e s : bad_signature fn rets e → handle_results fn el acc rets s = (s, Err e).
  Proof.
    destruct 1 as [t|r Hr|r r2 Hr|rets Hl]; simpl.
    - done.
    - destruct r as [c| |]; [by destruct (Hr c)|done|done].
    - destruct r2 as [|e|]; [done|by destruct (Hr e)|done].
    - destruct rets as [|? [|? [|]]]; simpl in *; [lia..|done].
  Qed.

  Lemma fails_complete :
    (∀ s nd s' e, fails E self body s nd s' e → P s nd s' e) ∧
    (∀ s l s' e, fails_all E self body s l s' e → P1 s l s' e) ∧
    (∀ s lines s' e, fails_lines E self body s lines s' e → P2 s lines s' e) ∧
    (∀ s m i args s' e, fails_args E self body s m i args s' e → P3 s m i args s' e).
  Proof.
    apply fails_mutind; unfold P, P1, P2, P3.
    - intros s l s' e _ IH Hw Hv. destruct (IH Hw Hv) as [n Hn]. by exists (S n).
    - intros s l s' e _ IH Hw Hv. destruct (IH Hw Hv) as [n Hn]. exists (S n). intros acc. simpl.
      unfold visit_lines. by apply mbind_err_eq, mbind_err_eq.
    - intros s l s' e _ IH Hw Hv. destruct (IH Hw Hv) as [n Hn]. exists (S n). intros acc. simpl.
      unfold visit_lines. by apply mbind_err_eq, mbind_err_eq.
    - intros s fn args l x el Hx Hno (f & Hf & ->) Hw Hv. exists 1. intros acc. simpl. unfold visit_invoke.
      rewrite (mbind_eq _ _ _ _ _ (touch_eq self l s)).
      rewrite (mbind_eq mheap _ _ (touch self l s) _ eq_refl).
      assert (st_heap (touch self l s) !! self = Some (set_invloc x l)) as -> by (simpl; by rewrite (upd_lookup_eq _ _ _ x)).
      assert (file_path (st_heap (touch self l s)) self = Some f) as ->.
      { rewrite <- Hf. simpl. by apply file_path_upd. }
      rewrite (mbind_eq (mopt (Some f)) _ _ (touch self l s) f eq_refl). simpl. apply find_none in Hno. by rewrite Hno.
    - intros s fn args l x m Hx Hd Ha Hw Hv. exists 1. intros acc.
      change (eval E 1 self acc (NInvoke fn args l) s) with (visit_invoke E (eval E 0) self acc fn args l s).
      destruct (invoke_start 0 acc fn args l s x m Hw Hv Hx Hd) as (f & Hf & ->).
      destruct (arity_ok m (length args)) eqn:Ho; [by apply accepts_ok in Ho|done].
    - intros s fn args l x m s' e Hx Hd Ha _ IH Hw Hv. destruct (touch_valid self l s Hw Hv) as [Hw1 Hv1].
      destruct (IH Hw1 Hv1) as [n Hn]. exists (S n). intros acc. simpl.
      destruct (invoke_start n acc fn args l s x m Hw Hv Hx Hd) as (f & Hf & ->).
      apply accepts_ok in Ha. rewrite Ha. by apply mbind_err_eq.
    - intros s fn args l x m s1 argv s' rets e el Hx Hd Ha HY Hz [nb Hb] Hr (f & Hf & ->) Hw Hv.
      destruct (touch_valid self l s Hw Hv) as [Hw1 Hv1].
      pose proof (proj2 (proj2 (proj2 (proj2 (yields_complete E self)))) _ _ _ _ _ _ HY Hw1 Hv1) as [n Hn].
      exists (S (n `max` nb)). intros acc. simpl.
      destruct (invoke_start (n `max` nb) acc fn args l s x m Hw Hv Hx Hd) as (f' & Hf' & ->).
      assert (f' = f) as -> by congruence. apply accepts_ok in Ha. rewrite Ha.
      erewrite mbind_eq. 2: { eapply mle_ok; [|exact Hn]. apply mle_map. intros. apply mle_convert, eval_mono. lia. }
      apply not_zero in Hz. rewrite Hz.
      erewrite mbind_eq. 2: { eapply mle_ok; [|exact Hb]. apply mle_prog, eval_mono. lia. }
      by apply handle_returned.
    - intros s fn args l x m s1 argv s' rets e Hx Hd Ha HY Hz [nb Hb] Hr Hw Hv.
      destruct (touch_valid self l s Hw Hv) as [Hw1 Hv1].
      pose proof (proj2 (proj2 (proj2 (proj2 (yields_complete E self)))) _ _ _ _ _ _ HY Hw1 Hv1) as [n Hn].
      exists (S (n `max` nb)). intros acc. simpl.
      destruct (invoke_start (n `max` nb) acc fn args l s x m Hw Hv Hx Hd) as (f' & Hf' & ->).
      apply accepts_ok in Ha. rewrite Ha.
      erewrite mbind_eq. 2: { eapply mle_ok; [|exact Hn]. apply mle_map. intros. apply mle_convert, eval_mono. lia. }
      apply not_zero in Hz. rewrite Hz.
      erewrite mbind_eq. 2: { eapply mle_ok; [|exact Hb]. apply mle_prog, eval_mono. lia. }
      by apply handle_bad.
    - intros s nd l s' e _ IH Hw Hv. destruct (IH Hw Hv) as [n Hn]. exists n. intros acc. by apply mbind_err_eq.
    - intros s nd l s1 cs s' e HY _ IH Hw Hv. destruct (yields_valid _ _ _ _ HY Hw Hv) as ([n1 H1] & Hw1 & Hv1).
      destruct (IH Hw1 Hv1) as [n2 H2]. exists (n1 `max` n2). intros acc. unfold visit_seq. simpl. erewrite mbind_eq.
      2: { eapply mle_ok; [|apply H1]. apply eval_mono. lia. }
      eapply mle_err; [|apply H2]. apply mle_visit_seq, eval_mono. lia.
    - intros s l lines s' e _ IH Hw Hv. destruct (IH Hw Hv) as [n Hn]. exists n. by apply mbind_err_eq.
    - intros s l lines s1 cs s' e HY _ IH Hw Hv.
      destruct (proj1 (proj2 (yields_complete E self)) _ _ _ _ HY Hw Hv) as [n1 H1].
      assert (wf (st_heap s1) ∧ valid (st_heap s1) self) as [Hw1 Hv1].
      { apply (eval_valid E self (S n1) None (NSeq l) s s1 (Ok (fold_append None cs))); [apply H1|done..]. }
      destruct (IH Hw1 Hv1) as [n2 H2]. exists (n1 `max` n2). simpl.
      erewrite mbind_eq. 2: { eapply mle_ok; [|apply H1]. apply mle_visit_seq, eval_mono. lia. }
      apply mbind_err_eq. eapply mle_err; [|apply H2]. apply mle_map. intros. apply mle_visit_seq, eval_mono. lia.
    - intros s m i nd args name Hp Hw Hv. exists 0. rewrite (types_from_cons _ _ _ _ _ Hp). done.
    - intros s m i ty nd args s' e Hp Hty _ IH Hw Hv. destruct (IH Hw Hv) as [n Hn]. exists n.
      rewrite (types_from_cons _ _ _ _ _ Hp). simpl. apply mbind_err_eq.
      destruct Hty as [->| ->]; simpl; by apply mbind_err_eq.
    - intros s m i ty nd args s1 v s' e Hp HY _ IH Hw Hv.
      destruct (proj1 (proj2 (proj2 (proj2 (yields_complete E self)))) _ _ _ _ _ HY Hw Hv) as [n1 H1].
      destruct (convert_valid E self _ _ _ _ _ _ H1 Hw Hv) as [Hw1 Hv1]. destruct (IH Hw1 Hv1) as [n2 H2].
      exists (n1 `max` n2). rewrite (types_from_cons _ _ _ _ _ Hp). simpl. erewrite mbind_eq.
      2: { eapply mle_ok; [|apply H1]. apply mle_convert, eval_mono. lia. }
      apply mbind_err_eq. eapply mle_err; [|apply H2]. apply mle_map. intros. apply mle_convert, eval_mono. lia.
  Qed.
End fail.
