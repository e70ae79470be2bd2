(** The evaluator computes what EvalSpec.v says. *)
From Coq Require Import Ascii String.
From stdpp Require Import base tactics relations strings list.
From Verif Require Import GoBase Ast Content ContentSpec ContentProofs Section TreeSpec TreeProofs TagProofs QueryProofs
  Evaluate EvalProofs EvalFrame EvalInv EvalSpec.

(** ** More fuel gives the same result *)

Definition mle {A} (m m' : M A) : Prop := ∀ s, snd (m s) ≠ NoFuel → m' s = m s.

Lemma mle_refl {A} (m : M A) : mle m m.
Proof. done. Qed.
Lemma mle_bind {A B} (m m' : M A) (f f' : A → M B) : mle m m' → (∀ a, mle (f a) (f' a)) →
  mle (mbind m f) (mbind m' f').
Proof.
  intros Hm Hf s Hn. unfold mbind in *. specialize (Hm s).
  destruct (m s) as [s' [a|e| |]]; simpl in *; (rewrite Hm; [|done]); try done. by apply Hf.
Qed.
Lemma mle_catch {A} (m m' : M A) : mle m m' → mle (mcatch m) (mcatch m').
Proof.
  intros Hm s Hn. unfold mcatch in *. specialize (Hm s).
  destruct (m s) as [s' [a|e| |]]; simpl in *; try done; (rewrite Hm; done).
Qed.
Lemma mle_map {A B} (f f' : A → M B) l : (∀ x, mle (f x) (f' x)) → mle (mmap f l) (mmap f' l).
Proof.
  intros Hf. induction l as [|x l IH]; simpl; [apply mle_refl|].
  apply mle_bind; [done|]. intros y. by apply mle_bind.
Qed.
Lemma mle_fold {A B} (f f' : B → A → M B) l acc : (∀ a x, mle (f a x) (f' a x)) → mle (mfold f acc l) (mfold f' acc l).
Proof.
  intros Hf. revert acc. induction l as [|x l IH]; intros acc; simpl; [apply mle_refl|].
  apply mle_bind; [done|]. intros y. apply IH.
Qed.

Section mono.
  Context (E : env) (rec rec' : nat → option content → node → M (option content)).
  Context (Hrec : ∀ self acc nd, mle (rec self acc nd) (rec' self acc nd)).

  Lemma mle_evaluate_section self nd fs : mle (evaluate_section rec self nd fs) (evaluate_section rec' self nd fs).
  Proof. apply mle_bind; [apply mle_refl|]. intros _. apply mle_bind; [apply Hrec|]. intros; apply mle_refl. Qed.

  Lemma mle_evaluate_file parent path fs : mle (evaluate_file E rec parent path fs) (evaluate_file E rec' parent path fs).
  Proof.
    unfold evaluate_file. destruct (e_fs E path) as [[mt p]|]; [|apply mle_refl].
    apply mle_bind; [apply mle_refl|]. intros nd. apply mle_bind; [apply mle_refl|]. intros i.
    apply mle_bind; [apply mle_evaluate_section|]. intros; apply mle_refl.
  Qed.

  Lemma mle_prog {A} self (p : prog A) : mle (run_prog E rec self p) (run_prog E rec' self p).
  Proof.
    induction p as [a| |k IH|name k IH|o k IH|nd fs a l k IH|path fs a k IH]; simpl.
    - apply mle_refl.
    - apply mle_refl.
    - apply mle_bind; [apply mle_refl|]. intros h. apply IH.
    - apply IH.
    - apply mle_bind; [apply mle_refl|]. intros _. apply IH.
    - apply mle_bind.
      + apply mle_catch. apply mle_bind; [apply mle_refl|]. intros i. apply mle_bind; [apply mle_evaluate_section|].
        intros; apply mle_refl.
      + intros r. apply mle_bind; [apply mle_refl|]. intros _. apply IH.
    - apply mle_bind; [apply mle_catch, mle_evaluate_file|]. intros r. apply mle_bind; [apply mle_refl|]. intros _. apply IH.
  Qed.

  Lemma mle_visit_seq self acc l : mle (visit_seq rec self acc l) (visit_seq rec' self acc l).
  Proof. apply mle_fold. intros; apply Hrec. Qed.

  Lemma mle_convert self ty nd : mle (convert E rec self ty nd) (convert E rec' self ty nd).
  Proof. destruct ty; simpl; try apply mle_refl; (apply mle_bind; [apply Hrec|]; intros; apply mle_refl). Qed.

  Lemma mle_eval_F self acc nd : mle (eval_F E rec self acc nd) (eval_F E rec' self acc nd).
  Proof.
    assert (∀ lines, mle (visit_lines rec self lines) (visit_lines rec' self lines)) as Hl.
    { intros lines. apply mle_bind; [|intros; apply mle_refl]. apply mle_map. intros; apply mle_visit_seq. }
    destruct nd as [s|l|l|l|fn args l]; simpl.
    - apply mle_refl.
    - apply mle_visit_seq.
    - apply mle_bind; [apply Hl|]. intros; apply mle_refl.
    - apply mle_bind; [apply Hl|]. intros; apply mle_refl.
    - unfold visit_invoke. apply mle_bind; [apply mle_refl|]. intros _. apply mle_bind; [apply mle_refl|]. intros h.
      destruct (h !! self) as [x|]; [|apply mle_refl]. apply mle_bind; [apply mle_refl|]. intros f.
      destruct (find_method E (s_factories x) (method_name fn)) as [m|]; [|apply mle_refl].
      destruct (arity_ok m (length args)); [|apply mle_refl].
      apply mle_bind; [apply mle_map; intros; apply mle_convert|]. intros argv.
      destruct (existsb is_zero argv); [apply mle_refl|]. apply mle_bind; [apply mle_prog|]. intros; apply mle_refl.
  Qed.
End mono.

Lemma eval_mono E n n' : n ≤ n' → ∀ self acc nd, mle (eval E n self acc nd) (eval E n' self acc nd).
Proof.
  revert n'. induction n as [|n IH]; intros n' Hn self acc nd.
  - intros s H. by destruct H.
  - destruct n' as [|n']; [lia|]. simpl. apply mle_eval_F. apply IH. lia.
Qed.

Lemma mle_ok {A} (m m' : M A) s s' a : mle m m' → m s = (s', Ok a) → m' s = (s', Ok a).
Proof. intros Hm Hs. rewrite Hm; rewrite Hs; done. Qed.

(** ** Inversion of successful steps *)

Lemma mbind_ok {A B} (m : M A) (f : A → M B) s s' b : mbind m f s = (s', Ok b) →
  ∃ s1 a, m s = (s1, Ok a) ∧ f a s1 = (s', Ok b).
Proof. unfold mbind. destruct (m s) as [s1 [a|e| |]]; try done. eauto. Qed.

Lemma mbind_eq {A B} (m : M A) (f : A → M B) s s1 a : m s = (s1, Ok a) → mbind m f s = f a s1.
Proof. unfold mbind. intros ->. done. Qed.

Lemma fold_append_joined cs : fold_append None cs = joined cs.
Proof. rewrite fold_append_spec. done. Qed.
Lemma fold_append_app acc a b : fold_append acc (a ++ b) = fold_append (fold_append acc a) b.
Proof. apply fold_left_app. Qed.
Lemma fold_append_one acc c : fold_append acc [c] = go_append acc [Some c].
Proof. done. Qed.

Lemma omap_id_some {A} (l : list (option A)) : omap id l = omap id l.
Proof. done. Qed.

(** ** The file of a section *)
Lemma touch_eq self l s : mupd self (λ x, set_invloc x l) s = (touch self l s, Ok tt).
Proof. done. Qed.

Lemma dispatches_find E name fs m : dispatches E name fs m ↔ find_method E fs name = Some m.
Proof.
  induction fs as [|f fs IH]; simpl; [split; [by inversion 1|done]|].
  destruct (e_methods E f name) as [m'|] eqn:Hf.
  - split; [inversion 1; subst; congruence|]. intros [= ->]. by constructor.
  - rewrite <- IH. split; [inversion 1; subst; congruence|]. by constructor 2.
Qed.

Lemma accepts_ok m k : accepts m k ↔ arity_ok m k = true.
Proof.
  unfold accepts, arity_ok. destruct (m_variadic m).
  - by rewrite Nat.leb_le.
  - rewrite Nat.eqb_eq. naive_solver.
Qed.

(** ** Argument lists *)

(** The conversions done for the arguments from index [i] on. *)
Definition types_from (m : method) (i : nat) (args : list node) : list (argty * node) :=
  zip (drop i (m_in m)) args ++
  match m_variadic m with Some t => map (pair t) (drop (length (m_in m) - i) args) | None => [] end.

Lemma types_from_0 m args : types_from m 0 args = arg_types m args.
Proof. unfold types_from, arg_types. simpl. by rewrite Nat.sub_0_r. Qed.

Lemma types_from_cons m i nd args ty : param m i ty →
  types_from m i (nd :: args) = (ty, nd) :: types_from m (S i) args.
Proof.
  intros Hp. unfold types_from. destruct (decide (i < length (m_in m))) as [Hi|Hi].
  - destruct Hp as [Hty|[? _]]; [|lia].
    rewrite (drop_S _ ty) by done. replace (length (m_in m) - i) with (S (length (m_in m) - S i)) by lia. done.
  - destruct Hp as [Hty%lookup_lt_Some|[_ Hv]]; [lia|]. rewrite !drop_ge by lia. rewrite Hv. simpl.
    replace (length (m_in m) - i) with 0 by lia. replace (length (m_in m) - S i) with 0 by lia. rewrite (drop_ge _ (S i)) by lia. done.
Qed.

Lemma types_from_nil m i : types_from m i [] = [].
Proof. unfold types_from. rewrite zip_with_nil_r. simpl. destruct (m_variadic m); [|done]. by rewrite drop_nil. Qed.

Lemma param_exists m i k : accepts m (i + S k) → ∃ ty, param m i ty.
Proof.
  unfold accepts, param. intros Ha. destruct (m_variadic m) as [t|].
  - destruct (m_in m !! i) as [ty|] eqn:Hi; [eauto|]. apply lookup_ge_None in Hi. eauto.
  - destruct (lookup_lt_is_Some_2 (m_in m) i) as [ty ?]; [lia|eauto].
Qed.

Lemma param_fun m i ty ty' : param m i ty → param m i ty' → ty = ty'.
Proof.
  intros [H|[Hl H]] [H'|[Hl' H']]; try congruence.
  - apply lookup_lt_Some in H. lia.
  - apply lookup_lt_Some in H'. lia.
Qed.

(** ** Completeness: what EvalSpec.v derives, the evaluator computes *)

Lemma not_zero argv : ACon None ∉ argv ↔ existsb is_zero argv = false.
Proof.
  induction argv as [|v argv IH]; simpl; [split; [done|]; intros _ ?%elem_of_nil; done|].
  rewrite not_elem_of_cons, orb_false_iff, IH. split; (intros [H ?]; split; [|done]).
  - by destruct v as [|[]|].
  - by destruct v as [|[]|].
Qed.

Section spec.
  Context (E : env) (self : nat).
  Notation body := (runs E self).

  Let P s nd s' cs := wf (st_heap s) → valid (st_heap s) self → 
    ∃ n, ∀ acc, eval E n self acc nd s = (s', Ok (fold_append acc cs)).
  Let P1 s l s' cs := wf (st_heap s) → valid (st_heap s) self →
    ∃ n, ∀ acc, visit_seq (eval E n) self acc l s = (s', Ok (fold_append acc cs)).
  Let P2 s lines s' css := wf (st_heap s) → valid (st_heap s) self →
    ∃ n, mmap (visit_seq (eval E n) self None) lines s = (s', Ok (map joined css)).
  Let P3 s ty nd s' v := wf (st_heap s) → valid (st_heap s) self →
    ∃ n, convert E (eval E n) self ty nd s = (s', Ok v).
  Let P4 s m i args s' argv := wf (st_heap s) → valid (st_heap s) self →
    ∃ n, mmap (λ p, convert E (eval E n) self (fst p) (snd p)) (types_from m i args) s = (s', Ok argv).

  Lemma omap_joined css : omap id (map joined css) = omap joined css.
  Proof. induction css as [|cs css IH]; [done|]. simpl. destruct (joined cs); simpl; [f_equal|]; exact IH. Qed.

  Lemma eval_valid n acc nd s s' r : eval E n self acc nd s = (s', r) → wf (st_heap s) → valid (st_heap s) self →
    wf (st_heap s') ∧ valid (st_heap s') self.
  Proof.
    intros He Hw Hv. pose proof (eval_frame E n self acc nd s Hw Hv) as [Hw' Hl _ _ _ _].
    rewrite He in *. simpl in *. split; [done|]. unfold valid in *. lia.
  Qed.

  Lemma convert_valid n ty nd s s' r : convert E (eval E n) self ty nd s = (s', r) → wf (st_heap s) → valid (st_heap s) self →
    wf (st_heap s') ∧ valid (st_heap s') self.
  Proof.
    intros He Hw Hv. pose proof (eval_frame E n self None nd s Hw Hv) as [Hw' Hl _ _ _ _].
    assert (s' = s ∨ s' = fst (eval E n self None nd s)) as [->| ->]; [|done|].
    { destruct ty; simpl in He; unfold mbind in He; [| |left; by injection He|left; by injection He];
        (destruct (eval E n self None nd s) as [s1 [[c|]|e| |]]; simpl in *; [..|by injection He; eauto|by injection He; eauto|by injection He; eauto]);
        try (injection He as <- <-; by right). unfold mheap, mlift in He. destruct (str E (st_heap s1) c); injection He as <- <-; by right. }
    split; [done|]. unfold valid in *. lia.
  Qed.

  Lemma wf_file h : wf h → valid h self → ∃ f, file_path h self = Some f.
  Proof. intros Hw Hv. apply file_path_total; done. Qed.

  Lemma touch_valid l s : wf (st_heap s) → valid (st_heap s) self →
    wf (st_heap (touch self l s)) ∧ valid (st_heap (touch self l s)) self.
  Proof.
    intros Hw Hv. simpl. split; [apply upd_wf; [by intros ?|done]|]. unfold valid in *. by rewrite upd_length.
  Qed.

  Lemma returns_handle fn l acc rets cs s : returns rets cs →
    handle_results fn l acc rets s = (s, Ok (fold_append acc cs)).
  Proof. by destruct 1. Qed.

  Lemma yields_complete :
    (∀ s nd s' cs, yields E self body s nd s' cs → P s nd s' cs) ∧
    (∀ s l s' cs, yields_all E self body s l s' cs → P1 s l s' cs) ∧
    (∀ s lines s' css, yields_lines E self body s lines s' css → P2 s lines s' css) ∧
    (∀ s ty nd s' v, yields_arg E self body s ty nd s' v → P3 s ty nd s' v) ∧
    (∀ s m i args s' argv, yields_args E self body s m i args s' argv → P4 s m i args s' argv).
  Proof.
    apply yields_mutind; unfold P, P1, P2, P3, P4.
    - intros s t Hw Hv. exists 1. done.
    - intros s l s' cs _ IH Hw Hv. destruct (IH Hw Hv) as [n Hn]. exists (S n). done.
    - intros s lines s' css _ IH Hw Hv. destruct (IH Hw Hv) as [n Hn]. exists (S n). intros acc. simpl.
      unfold visit_lines. rewrite (mbind_eq _ _ s s' (omap joined css)).
      2: { erewrite mbind_eq; [|exact Hn]. by rewrite omap_joined. }
      destruct (omap joined css) as [|c [|d r]]; [done| |done]. simpl. by destruct (is_flow c).
    - intros s lines s' css _ IH Hw Hv. destruct (IH Hw Hv) as [n Hn]. exists (S n). intros acc. simpl.
      unfold visit_lines. rewrite (mbind_eq _ _ s s' (omap joined css)); [done|].
      erewrite mbind_eq; [|exact Hn]. by rewrite omap_joined.
    - intros s fn args l x m s1 argv s' rets cs Hx Hd Ha _ IH Hz%not_zero [nb Hb] Hr Hw Hv.
      destruct (touch_valid l s Hw Hv) as [Hw1 Hv1]. destruct (IH Hw1 Hv1) as (na & Hna).
      exists (S (na `max` nb)). intros acc. simpl. unfold visit_invoke.
      rewrite (mbind_eq _ _ _ _ _ (touch_eq self l s)). rewrite (mbind_eq mheap _ _ (touch self l s) _ eq_refl).
      assert (st_heap (touch self l s) !! self = Some (set_invloc x l)) as ->.
      { simpl. by rewrite (upd_lookup_eq _ _ _ x). }
      destruct (wf_file _ Hw1 Hv1) as [f Hf]. rewrite Hf. rewrite (mbind_eq (mopt (Some f)) _ _ (touch self l s) f eq_refl).
      simpl. apply dispatches_find in Hd. rewrite Hd. apply accepts_ok in Ha. rewrite Ha.
      rewrite (mbind_eq _ _ _ s1 argv).
      2: { rewrite <- types_from_0. eapply mle_ok; [|exact Hna]. apply mle_map. intros. apply mle_convert.
           apply eval_mono. lia. }
      rewrite Hz. rewrite (mbind_eq _ _ _ s' rets).
      2: { eapply mle_ok; [|exact Hb]. apply mle_prog. apply eval_mono. lia. }
      by apply returns_handle.
    - intros s Hw Hv. exists 0. done.
    - intros s nd l s1 s2 a b _ IH1 _ IH2 Hw Hv. destruct (IH1 Hw Hv) as [n1 H1].
      destruct (eval_valid _ _ _ _ _ _ (H1 None) Hw Hv) as [Hw1 Hv1]. destruct (IH2 Hw1 Hv1) as [n2 H2].
      exists (n1 `max` n2). intros acc. unfold visit_seq. simpl. erewrite mbind_eq.
      2: { eapply mle_ok; [|apply H1]. apply eval_mono. lia. }
      rewrite fold_append_app. eapply mle_ok; [|apply H2]. apply mle_visit_seq. apply eval_mono. lia.
    - intros s Hw Hv. exists 0. done.
    - intros s l lines s1 s2 cs css _ IH1 _ IH2 Hw Hv. destruct (IH1 Hw Hv) as [n1 H1].
      assert (wf (st_heap s1) ∧ valid (st_heap s1) self) as [Hw1 Hv1].
      { apply (eval_valid (S n1) None (NSeq l) s s1 (Ok (fold_append None cs))); [apply H1|done..]. }
      destruct (IH2 Hw1 Hv1) as [n2 H2]. exists (n1 `max` n2). simpl.
      erewrite mbind_eq. 2: { eapply mle_ok; [|apply H1]. apply mle_visit_seq, eval_mono. lia. }
      erewrite mbind_eq. 2: { eapply mle_ok; [|apply H2]. apply mle_map. intros. apply mle_visit_seq, eval_mono. lia. }
      by rewrite fold_append_joined.
    - intros s nd s' cs c t _ IH Hj Ht Hw Hv. destruct (IH Hw Hv) as [n H]. exists n. simpl.
      erewrite mbind_eq; [|apply H]. rewrite fold_append_joined, Hj.
      rewrite (mbind_eq mheap _ _ s' _ eq_refl). rewrite Ht. done.
    - intros s nd s' cs _ IH Hw Hv. destruct (IH Hw Hv) as [n H]. exists n. simpl.
      erewrite mbind_eq; [|apply H]. by rewrite fold_append_joined.
    - intros s nd Hw Hv. by exists 0.
    - intros s m i Hw Hv. exists 0. by rewrite types_from_nil.
    - intros s m i ty nd args s1 v s2 vs Hp _ IH1 _ IH2 Hw Hv. destruct (IH1 Hw Hv) as [n1 H1].
      destruct (convert_valid _ _ _ _ _ _ H1 Hw Hv) as [Hw1 Hv1]. destruct (IH2 Hw1 Hv1) as (n2 & H2).
      exists (n1 `max` n2). rewrite (types_from_cons _ _ _ _ _ Hp). simpl. erewrite mbind_eq.
      2: { eapply mle_ok; [|apply H1]. apply mle_convert, eval_mono. lia. }
      erewrite mbind_eq; [done|]. eapply mle_ok; [|apply H2]. apply mle_map. intros. apply mle_convert, eval_mono. lia.
  Qed.

  (** ** Soundness *)

  Lemma fold_append_none_inv acc r c : r = go_append acc [c] → ∃ cs, r = fold_append acc cs ∧ cs = option_list c.
  Proof. intros ->. exists (option_list c). split; [|done]. destruct c; [done|]. simpl. by destruct acc. Qed.

  Lemma handle_returns fn l acc rets s s' r : handle_results fn l acc rets s = (s', Ok r) →
    s' = s ∧ ∃ cs, returns rets cs ∧ r = fold_append acc cs.
  Proof.
    destruct rets as [|r1 [|r2 [|r3 rest]]]; simpl.
    - intros [= <- <-]. split; [done|]. exists []. split; [constructor|done].
    - destruct r1 as [[c|]|[e|]|t]; intros [= <- <-]; (split; [done|]); eexists; (split; [constructor|done]).
    - destruct r2 as [c2|[e|]|t2]; try done. destruct r1 as [[c|]|[e|]|t]; intros [= <- <-]; (split; [done|]); eexists; (split; [constructor|done]).
    - done.
  Qed.

  Lemma visit_seq_sound n : (∀ acc nd s s' r, eval E n self acc nd s = (s', Ok r) →
      ∃ cs, yields E self body s nd s' cs ∧ r = fold_append acc cs) →
    ∀ l acc s s' r, visit_seq (eval E n) self acc l s = (s', Ok r) →
      ∃ cs, yields_all E self body s l s' cs ∧ r = fold_append acc cs.
  Proof.
    intros Hn. induction l as [|nd l IH]; intros acc s s' r Hs; unfold visit_seq in *; simpl in Hs.
    - injection Hs as <- <-. exists []. split; [constructor|done].
    - apply mbind_ok in Hs as (s1 & a & H1 & H2). apply Hn in H1 as (c1 & Y1 & ->).
      apply IH in H2 as (c2 & Y2 & ->). exists (c1 ++ c2). split; [by econstructor|]. by rewrite fold_append_app.
  Qed.

  Lemma lines_sound n : (∀ acc nd s s' r, eval E n self acc nd s = (s', Ok r) →
      ∃ cs, yields E self body s nd s' cs ∧ r = fold_append acc cs) →
    ∀ lines s s' r, visit_lines (eval E n) self lines s = (s', Ok r) →
      ∃ css, yields_lines E self body s lines s' css ∧ r = omap joined css.
  Proof.
    intros Hn lines s s' r Hr. apply mbind_ok in Hr as (s1 & rs & Hm & [= <- <-]).
    revert s s1 rs Hm. induction lines as [|l lines IH]; intros s s' rs Hm; simpl in Hm.
    - injection Hm as <- <-. exists []. split; [constructor|done].
    - apply mbind_ok in Hm as (s1 & a & H1 & Hm). apply mbind_ok in Hm as (s2 & b & H2 & [= <- <-]).
      apply (visit_seq_sound n Hn) in H1 as (c1 & Y1 & ->). apply IH in H2 as (css & Y2 & Hb).
      exists (c1 :: css). split; [by econstructor|]. simpl. rewrite fold_append_joined.
      destruct (joined c1); simpl; [f_equal|]; exact Hb.
  Qed.

  Lemma convert_sound n : (∀ acc nd s s' r, eval E n self acc nd s = (s', Ok r) →
      ∃ cs, yields E self body s nd s' cs ∧ r = fold_append acc cs) →
    ∀ ty nd s s' v, convert E (eval E n) self ty nd s = (s', Ok v) → yields_arg E self body s ty nd s' v.
  Proof.
    intros Hn ty nd s s' v Hc. destruct ty as [| | |name]; simpl in Hc; [| | |done].
    - apply mbind_ok in Hc as (s3 & [c|] & H1 & Hc); [|done].
      rewrite (mbind_eq mheap _ _ s3 _ eq_refl) in Hc. apply mbind_ok in Hc as (s4 & t & Ht & [= <- <-]).
      unfold mlift in Ht. injection Ht as <- Ht. apply Hn in H1 as (cs & Y & Hj).
      rewrite fold_append_joined in Hj. by econstructor.
    - apply mbind_ok in Hc as (s3 & c & H1 & [= <- <-]). apply Hn in H1 as (cs & Y & ->).
      rewrite fold_append_joined. by econstructor.
    - injection Hc as <- <-. constructor.
  Qed.

  Lemma args_sound n m : (∀ acc nd s s' r, eval E n self acc nd s = (s', Ok r) →
      ∃ cs, yields E self body s nd s' cs ∧ r = fold_append acc cs) →
    ∀ args i s s' argv, accepts m (i + length args) →
      mmap (λ p, convert E (eval E n) self (fst p) (snd p)) (types_from m i args) s = (s', Ok argv) →
      yields_args E self body s m i args s' argv.
  Proof.
    intros Hn. induction args as [|nd args IH]; intros i s s' argv Ha Hm.
    - rewrite types_from_nil in Hm. injection Hm as <- <-. constructor.
    - simpl in Ha. destruct (param_exists m i _ Ha) as [ty Hty].
      rewrite (types_from_cons _ _ _ _ _ Hty) in Hm. simpl in Hm.
      apply mbind_ok in Hm as (s1 & v & Hc & Hm). apply mbind_ok in Hm as (s2 & vs & Hm & [= <- <-]).
      econstructor; [done|by eapply convert_sound|]. apply IH; [|done]. by rewrite Nat.add_succ_r in Ha.
  Qed.

  Lemma eval_sound n : ∀ acc nd s s' r, eval E n self acc nd s = (s', Ok r) →
    ∃ cs, yields E self body s nd s' cs ∧ r = fold_append acc cs.
  Proof.
    induction n as [|n IH]; intros acc nd s s' r Hr; simpl in Hr; [done|].
    destruct nd as [t|l|l|l|fn args l]; simpl in Hr.
    - injection Hr as <- <-. exists [CString t]. split; [constructor|done].
    - apply (visit_seq_sound n IH) in Hr as (cs & Y & ->). exists cs. split; [by constructor|done].
    - apply mbind_ok in Hr as (s1 & para & Hl & Hr). apply (lines_sound n IH) in Hl as (css & Y & ->).
      exists (block (omap joined css)).
      assert (yields E self body s (NPara l) s1 (block (omap joined css))) as HY by by constructor.
      destruct (omap joined css) as [|c [|d rest]] eqn:Hcs.
      + injection Hr as <- <-. done.
      + assert (s' = s1 ∧ r = fold_append acc (block [c])) as [-> ->].
        { simpl. by destruct (is_flow c); injection Hr as <- <-. }
        done.
      + injection Hr as <- <-. done.
    - apply mbind_ok in Hr as (s1 & pre & Hl & [= <- <-]). apply (lines_sound n IH) in Hl as (css & Y & ->).
      eexists. split; [by constructor|done].
    - unfold visit_invoke in Hr. rewrite (mbind_eq _ _ _ _ _ (touch_eq self l s)) in Hr.
      rewrite (mbind_eq mheap _ _ (touch self l s) _ eq_refl) in Hr.
      destruct (st_heap (touch self l s) !! self) as [x|] eqn:Hx; [|done].
      apply mbind_ok in Hr as (s1 & f & Hf & Hr).
      assert (s1 = touch self l s) as ->.
      { destruct (file_path _ _); [|done]. by injection Hf as <- _. }
      destruct (find_method E (s_factories x) (method_name fn)) as [m|] eqn:Hm; [|done].
      destruct (arity_ok m (length args)) eqn:Ha; [|done].
      apply mbind_ok in Hr as (s2 & argv & Hargs & Hr).
      destruct (existsb is_zero argv) eqn:Hz; [done|].
      apply mbind_ok in Hr as (s3 & rets & Hb & Hr). apply handle_returns in Hr as (-> & cs & Hret & ->).
      exists cs. split; [|done]. simpl in Hx. rewrite upd_lookup in Hx. rewrite decide_True in Hx by done.
      destruct (st_heap s !! self) as [x0|] eqn:Hx0; [|done]. injection Hx as <-.
      eapply yields_invoke; [done|by apply dispatches_find|by apply accepts_ok| |by apply not_zero|by exists n|done].
      apply (args_sound n m IH); [by apply accepts_ok|by rewrite types_from_0].
  Qed.
End spec.
