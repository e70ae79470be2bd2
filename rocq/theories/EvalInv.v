(** Invariants of the state and of the contents and errors produced by
    evaluation. *)
From Coq Require Import Ascii String.
From stdpp Require Import base tactics relations strings list.
From Verif Require Import GoBase Ast Content Section ContentProofs TreeSpec TreeProofs TagProofs QueryProofs
  Evaluate EvalProofs EvalFrame.

Definition mono {A} (Q : nat → A → Prop) : Prop := ∀ n n' a, n ≤ n' → Q n a → Q n' a.

(** [tr n m Q]: started in a state satisfying [I] with at least [n] sections, [m]
    ends in a state satisfying [I] with no fewer sections, its result satisfies
    [Q] (which may depend on the number of sections), its error [X], and it
    panics only if [PP]. *)
Section triples.
  Context (I : heap → Prop) (X : error → Prop) (PP : Prop).

  Definition post {A} (Q : nat → A → Prop) (n : nat) (r : st * outcome error A) : Prop :=
    I (st_heap (fst r)) ∧ n ≤ length (st_heap (fst r)) ∧
    match snd r with
    | Ok a => Q (length (st_heap (fst r))) a
    | Err e => X e
    | Panic => PP
    | NoFuel => True
    end.

  Definition tr {A} (n : nat) (m : M A) (Q : nat → A → Prop) : Prop := ∀ s,
    I (st_heap s) → n ≤ length (st_heap s) → post Q (length (st_heap s)) (m s).

  Lemma tr_ret {A} n (a : A) (Q : nat → A → Prop) : mono Q → Q n a → tr n (mret a) Q.
  Proof. intros HQ Ha s HI Hs. split; [done|]. split; [done|]. by eapply HQ. Qed.

  Lemma tr_fail {A} n (o : outcome error A) Q :
    match o with Ok _ => False | Err e => X e | Panic => PP | NoFuel => True end → tr n (mfail o) Q.
  Proof. intros Ho s HI Hs. split; [done|]. split; [done|]. simpl. by destruct o. Qed.

  Lemma tr_bind {A B} n (m : M A) (f : A → M B) (P : nat → A → Prop) Q :
    tr n m P → (∀ a n', n ≤ n' → P n' a → tr n' (f a) Q) → tr n (mbind m f) Q.
  Proof.
    intros Hm Hf s HI Hs. unfold mbind. destruct (Hm s HI Hs) as (HI1 & Hl & HP).
    destruct (m s) as [s1 [a|e| |]]; simpl in *; [|done..].
    destruct (Hf a (length (st_heap s1))) with (s := s1) as (? & ? & ?); [lia|done..|].
    split; [done|]. split; [lia|done].
  Qed.

  Lemma tr_heap n (Q : nat → heap → Prop) : (∀ h, n ≤ length h → I h → Q (length h) h) → tr n mheap Q.
  Proof. intros HQ s HI Hs. split; [done|]. split; [done|]. by apply HQ. Qed.

  (** Reading the heap. *)
  Lemma tr_bind_heap {B} n (f : heap → M B) Q :
    (∀ s, I (st_heap s) → n ≤ length (st_heap s) → post Q (length (st_heap s)) (f (st_heap s) s)) →
    tr n (mbind mheap f) Q.
  Proof. intros Hf s HI Hs. apply Hf; done. Qed.

  Lemma tr_upd n i f (Q : nat → unit → Prop) : (∀ n, Q n tt) → (∀ h, I h → n ≤ length h → I (upd h i f)) →
    tr n (mupd i f) Q.
  Proof.
    intros HQ Hf s HI Hs. split; [by apply Hf|]. simpl. rewrite upd_length. split; [done|apply HQ].
  Qed.

  Lemma tr_weaken {A} n n' (m : M A) (P Q : nat → A → Prop) : n ≤ n' → (∀ k a, n' ≤ k → P k a → Q k a) →
    tr n m P → tr n' m Q.
  Proof.
    intros Hn HPQ Hm s HI Hs. destruct (Hm s HI) as (? & ? & Hq); [lia|]. split; [done|]. split; [done|].
    destruct (snd (m s)); [apply HPQ; [lia|done]|done..].
  Qed.

  Lemma tr_map {A B} n (f : A → M B) (l : list A) (Q : nat → A → B → Prop) :
    (∀ x, mono (λ n, Q n x)) → (∀ x n', x ∈ l → n ≤ n' → tr n' (f x) (λ k, Q k x)) →
    tr n (mmap f l) (λ k ys, Forall2 (Q k) l ys).
  Proof.
    intros HQ. revert n. induction l as [|x l IH]; intros n Hf; simpl.
    - apply tr_ret; [|constructor]. intros ? ? ? ? HF. inversion HF; subst. constructor.
    - eapply tr_bind; [apply Hf; [left|done]|]. intros y n1 Hn1 Hy.
      eapply tr_bind; [apply IH; intros z n' Hz ?; apply Hf; [by right|lia]|]. intros ys n2 Hn2 Hys.
      apply tr_ret; [|constructor; [by eapply HQ|done]].
      intros k k' zs Hk HF. eapply Forall2_impl; [done|]. intros a b. by apply HQ.
  Qed.

  Lemma tr_fold {A B} n (f : B → A → M B) acc (l : list A) (Q : nat → B → Prop) :
    mono Q → Q n acc →
    (∀ acc x n', x ∈ l → n ≤ n' → Q n' acc → tr n' (f acc x) Q) → tr n (mfold f acc l) Q.
  Proof.
    intros HQ. revert n acc. induction l as [|x l IH]; intros n acc Hacc Hf; simpl; [by apply tr_ret|].
    eapply tr_bind; [apply Hf; [left|done|done]|]. intros y n1 Hn1 Hy. apply IH; [done|].
    intros acc' z n' Hz Hn' Ha. apply Hf; [by right|lia|done].
  Qed.
End triples.

(** ** The evaluator's invariant *)

Definition qopt (Q : nat → content → Prop) (n : nat) (o : option content) : Prop :=
  match o with Some c => Q n c | None => True end.
Definition qarg (Q : nat → content → Prop) (n : nat) (a : argval) : Prop :=
  match a with ACon c => qopt Q n c | _ => True end.
Definition qret (Q : nat → content → Prop) (X : error → Prop) (n : nat) (r : retval) : Prop :=
  match r with RCon c => qopt Q n c | RErr (Some e) => X e | _ => True end.

(** What the contents of a document must satisfy: closed under what the evaluator
    itself builds. *)
Record closed (Q : nat → content → Prop) : Prop := Closed {
  q_mono : mono Q;
  q_string : ∀ n s, Q n (CString s);
  q_app : ∀ n l c, Q n (CSeq l) → Q n c → Q n (CSeq (l ++ [c]));
  q_pair : ∀ n a b, Q n a → Q n b → Q n (CSeq [a; b]);
  q_para : ∀ n l, Forall (Q n) l → Q n (CPara l);
  q_pre : ∀ n l, Forall (Q n) l → Q n (CPre l)
}.

Lemma closed_append Q n acc c : closed Q → qopt Q n acc → Q n c → qopt Q n (go_append acc [Some c]).
Proof.
  intros HQ Ha Hc. destruct acc as [a|]; simpl; [|done]. destruct a; simpl; try by apply HQ.
Qed.
Lemma qopt_mono Q : mono Q → mono (qopt Q).
Proof. intros HQ n n' [c|] Hn; simpl; [by apply HQ|done]. Qed.

(** What the state and the environment must satisfy. [I] is the invariant of the
    heap, [X] that of errors, [PP] is "panics are possible". *)
Record eval_inv (E : env) (I : heap → Prop) (Q : nat → content → Prop) (X : error → Prop) (PP : Prop) : Prop := EvalInv {
  ei_closed : closed Q;
  ei_alloc : ∀ h parent path, I h → match parent with Some p => p < length h | None => True end →
    I (h ++ [new_section parent path]);
  ei_invloc : ∀ h i l, I h → I (upd h i (λ x, set_invloc x l));
  ei_loc : ∀ h i l, I h → I (upd h i (λ x, set_loc x l));
  ei_use : ∀ h i f, I h → I (upd h i (use_plugin f));
  ei_body : ∀ h i c, I h → Q (length h) c → I (upd h i (λ x, set_body x c));
  ei_undefined : ∀ fn l, X (EUndefined fn l);
  ei_arity : ∀ fn a b v, X (EArity fn a b v);
  ei_argtype : ∀ t, X (EArgType t);
  ei_rettype : ∀ n t, X (ERetType n t);
  ei_retcount : ∀ fn n, X (ERetCount fn n);
  ei_wrap : ∀ fn l e, X e → X (wrap_error fn l e);
  ei_panic : PP;
  ei_methods : ∀ rec, (∀ n self acc nd, self < n → qopt Q n acc → tr I X PP n (rec self acc nd) (qopt Q)) →
    ∀ f name m self argv n, e_methods E f name = Some m → self < n → Forall (qarg Q n) argv →
    existsb is_zero argv = false →
    tr I X PP n (run_prog E rec self (m_body m self argv)) (λ k, Forall (qret Q X k))
}.

Section inv.
  Context (E : env) (I : heap → Prop) (Q : nat → content → Prop) (X : error → Prop).
  Let PP := True.
  Context (HE : eval_inv E I Q X PP).

  Lemma tr_lift_true {A} n (o : outcome error A) (P : nat → A → Prop) :
    mono P → (∀ a, o = Ok a → P n a) → (∀ e, o = Err e → X e) → tr I X PP n (mlift o) P.
  Proof.
    intros HP Ho He s HI Hs. split; [done|]. split; [done|]. simpl. destruct o; simpl; try done; eauto.
  Qed.

  (** String() returns no errors. *)
  Lemma omapM_no_err {E' A B} (f : A → outcome E' B) l e : (∀ x, x ∈ l → f x ≠ Err e) → omapM f l ≠ Err e.
  Proof.
    induction l as [|x l IH]; intros Hf; [done|]. change (omapM f (x :: l)) with
      (obind (λ y, obind (λ ys, Ok (y :: ys)) (omapM f l)) (f x)).
    pose proof (Hf x (elem_of_list_here _ _)) as Hx. destruct (f x); simpl; try done; [|congruence].
    pose proof (IH (λ z Hz, Hf z (elem_of_list_further _ _ _ Hz))) as Hl. destruct (omapM f l); simpl; congruence.
  Qed.
End inv.

Lemma obind_no_err {E' A B} (f : A → outcome E' B) o e : o ≠ Err e → (∀ a, f a ≠ Err e) → obind f o ≠ Err e.
Proof. destruct o; simpl; try done. intros ? ?. congruence. Qed.

Lemma cstring_F_no_err sim br h jump c e : (∀ c, jump c ≠ Err e) → cstring_F sim br h jump c ≠ Err e.
Proof.
  intros Hj.
  assert (∀ o, o ≠ Err e → fmt_s o ≠ Err e) as Hfmt by (intros []; simpl; congruence).
  induction c as [s|l IH|l IH|l IH|sec t rc o l IH|c t IH|s|s|st b c ps IH IHps|t l ti x IH1 IH2|p d|l o IH|rows IH|defs IH|b t|c IH]
    using content_ind'; simpl; try done.
  - apply obind_no_err; [|done]. apply omapM_no_err. by apply Forall_forall.
  - apply obind_no_err; [|done]. apply omapM_no_err. by apply Forall_forall.
  - apply obind_no_err; [|done]. apply omapM_no_err. by apply Forall_forall.
  - destruct rc; [done|]. destruct (ref_tag sim br h sec t o l) as [[u|]|e'| |]; try done. destruct (t_title u); done.
  - destruct (h !! s); [|done]. apply obind_no_err; [|done]. by apply Hfmt.
  - apply obind_no_err; [|done]. apply omapM_no_err. by apply Forall_forall.
  - apply obind_no_err; [|done]. apply omapM_no_err. intros r Hr. apply omapM_no_err.
    rewrite Forall_forall in IH. specialize (IH r Hr). by rewrite Forall_forall in IH.
  - apply obind_no_err; [|done]. apply omapM_no_err. intros [a b] Hr.
    rewrite Forall_forall in IH. destruct (IH _ Hr). simpl in *.
    apply obind_no_err; [by apply Hfmt|]. intros. apply obind_no_err; [by apply Hfmt|done].
Qed.

Lemma cstring_no_err sim br h n c e : cstring sim br h n c ≠ Err e.
Proof. revert c. induction n; intros c; simpl; by apply cstring_F_no_err. Qed.

Lemma title_tags_no_err sim br h n title tags e : title_tags sim br h n title tags ≠ Err e.
Proof.
  unfold title_tags, default_tag. destruct tags; [|done]. destruct (strip_aux title); [|done].
  apply obind_no_err; [|done]. apply obind_no_err; [|done]. apply cstring_no_err.
Qed.

Section inv2.
  Context (E : env) (I : heap → Prop) (Q : nat → content → Prop) (X : error → Prop).
  Let PP := True.
  Context (HE : eval_inv E I Q X PP).

  Section step.
    Context (rec : nat → option content → node → M (option content)).
    Context (Hrec : ∀ n self acc nd, self < n → qopt Q n acc → tr I X PP n (rec self acc nd) (qopt Q)).

    Lemma tr_visit_seq n self acc l : self < n → qopt Q n acc → tr I X PP n (visit_seq rec self acc l) (qopt Q).
    Proof.
      intros Hs Ha. apply tr_fold; [apply qopt_mono, HE|done|]. intros acc' x n' _ Hn Ha'. apply Hrec; [lia|done].
    Qed.

    Lemma tr_visit_lines n self l : self < n →
      tr I X PP n (visit_lines rec self l) (λ k cs, Forall (Q k) cs).
    Proof.
      intros Hs. eapply tr_bind.
      - apply (tr_map I X PP n _ l (λ k _ o, qopt Q k o)).
        + intros _. apply qopt_mono, HE.
        + intros x n' _ Hn. apply tr_visit_seq; [lia|done].
      - intros rs n' Hn HF. apply tr_ret.
        + intros k k' cs Hk Hcs. eapply Forall_impl; [exact Hcs|]. intros c. by apply HE.
        + clear -HF. induction HF as [|x o l rs Ho _ IH]; simpl; [constructor|].
          destruct o; simpl in *; [by constructor|done].
    Qed.

    Lemma tr_evaluate_section n self nd fs : self < n →
      tr I X PP n (evaluate_section rec self nd fs) (λ _ _, True).
    Proof.
      intros Hs. eapply tr_bind; [|intros _ n1 Hn1 _].
      { apply (tr_fold I X PP n _ tt fs (λ _ _, True)); [done|done|]. intros _ f n' _ _ _.
        apply tr_upd; [done|]. intros h HI _. by apply HE. }
      eapply tr_bind; [apply Hrec; [lia|done]|]. intros [c|] n2 Hn2 Hc; simpl in *; [|by apply tr_ret].
      intros s HI Hl. split; [|simpl; by rewrite upd_length]. apply HE; [done|]. eapply HE; [|done]. done.
    Qed.

    Lemma tr_alloc n parent path : match parent with Some p => p < n | None => True end →
      tr I X PP n (alloc parent path) (λ k i, i < k).
    Proof.
      intros Hp s HI Hs. split; simpl; [apply HE; [done|]|rewrite app_length; simpl; lia].
      destruct parent; [lia|done].
    Qed.

    Lemma tr_evaluate_node n self nd fs : self < n → tr I X PP n (evaluate_node rec self nd fs) (λ k i, i < k).
    Proof.
      intros Hs. eapply tr_bind; [by apply tr_alloc|]. intros i n1 Hn1 Hi.
      eapply tr_bind; [by apply tr_evaluate_section|]. intros _ n2 Hn2 _. simpl in Hi. apply tr_ret; [|simpl; lia].
      intros ? ? ? ? ?. simpl in *. lia.
    Qed.

    Lemma tr_evaluate_file n parent path fs :
      match parent with Some p => p < n | None => True end →
      (∀ p, X (EStat p)) → (∀ mt e, e_fs E path = Some (mt, inr e) → X e) →
      tr I X PP n (evaluate_file E rec parent path fs) (λ k i, i < k).
    Proof.
      intros Hp Hst Hpe. unfold evaluate_file. destruct (e_fs E path) as [[mt parsed]|] eqn:Hf; [|apply tr_fail, Hst].
      eapply (tr_bind I X PP n _ _ (λ _ _, True)).
      { intros s HI Hs. split; [done|]. split; [done|]. unfold parse_step. simpl.
        assert (match parsed with inl n => True | inr e => X e end) as Hx.
        { destruct parsed; [done|]. by eapply Hpe. }
        destruct (assoc_get path (st_cache s)) as [[nd t]|]; [destruct (Nat.ltb t mt)|]; destruct parsed; done. }
      intros nd n1 Hn1 _. eapply tr_bind; [apply tr_alloc; destruct parent; [lia|done]|]. intros i n2 Hn2 Hi.
      eapply tr_bind; [by apply tr_evaluate_section|]. intros _ n3 Hn3 _ s HI Hs.
      split; [done|]. simpl in *. lia.
    Qed.
  End step.

  Lemma tr_convert rec n self ty nd : self < n →
    (∀ n self acc nd, self < n → qopt Q n acc → tr I X PP n (rec self acc nd) (qopt Q)) →
    tr I X PP n (convert E rec self ty nd) (qarg Q).
  Proof.
    intros Hs Hrec. assert (mono (qarg Q)) as Hm.
    { intros k k' [?|c|?] Hk; simpl; try done. by apply qopt_mono; [apply HE|]. }
    destruct ty; simpl.
    - eapply tr_bind; [by apply Hrec|]. intros [c|] n1 Hn1 Hc; [|by apply tr_fail].
      eapply tr_bind; [by apply (tr_heap I X PP n1 (λ _ _, True))|]. intros h n2 Hn2 _.
      eapply (tr_bind I X PP n2 _ _ (λ _ _, True)).
      + apply tr_lift_true; [done|done|]. intros e He. by apply cstring_no_err in He.
      + intros str n3 Hn3 _. by apply tr_ret.
    - eapply tr_bind; [by apply Hrec|]. intros c n1 Hn1 Hc. by apply tr_ret.
    - by apply tr_ret.
    - apply tr_fail, HE.
  Qed.

  Lemma tr_handle_results n fn l acc rets : qopt Q n acc → Forall (qret Q X n) rets →
    tr I X PP n (handle_results fn l acc rets) (qopt Q).
  Proof.
    intros Ha HF. assert (mono (qopt Q)) as Hm by apply qopt_mono, HE.
    assert (∀ c, Q n c → tr I X PP n (mret (go_append acc [Some c])) (qopt Q)) as Happ.
    { intros c Hc. apply tr_ret; [done|]. apply closed_append; [apply HE|done|done]. }
    destruct rets as [|r1 [|r2 [|r3 rets]]]; simpl.
    - by apply tr_ret.
    - inversion HF as [|? ? H1 _]; subst. destruct r1 as [[c|]|[e|]|t]; simpl in *;
        [by apply Happ|by apply tr_fail|apply tr_fail; by apply HE|by apply tr_ret|apply tr_fail, HE].
    - inversion HF as [|? ? H1 HF2]; subst. inversion HF2 as [|? ? H2 _]; subst.
      destruct r2 as [c2|[e|]|t2]; simpl in *; [apply tr_fail, HE|apply tr_fail; by apply HE| |apply tr_fail, HE].
      destruct r1 as [[c|]|e|t]; simpl in *; [by apply Happ|by apply tr_fail|apply tr_fail, HE|apply tr_fail, HE].
    - apply tr_fail, HE.
  Qed.

  Lemma tr_eval k : ∀ n self acc nd, self < n → qopt Q n acc → tr I X PP n (eval E k self acc nd) (qopt Q).
  Proof.
    assert (mono (qopt Q)) as Hm by apply qopt_mono, HE.
    induction k as [|k IH]; intros n self acc nd Hs Ha; simpl; [by apply tr_fail|].
    destruct nd as [str|l|l|l|fn args l]; simpl.
    - apply tr_ret; [done|]. apply closed_append; [apply HE|done|apply HE].
    - by apply tr_visit_seq.
    - eapply tr_bind; [by apply tr_visit_lines|]. intros cs n1 Hn1 Hcs. simpl in Hcs.
      assert (qopt Q n1 acc) as Ha1 by by eapply Hm.
      assert (tr I X PP n1 (mret (go_append acc [Some (CPara cs)])) (qopt Q)) as Hp.
      { apply tr_ret; [done|]. apply closed_append; [apply HE|done|by apply HE]. }
      destruct cs as [|c [|d cs]]; [by apply tr_ret| |done].
      destruct (is_flow c); [done|]. apply tr_ret; [done|]. apply closed_append; [apply HE|done|].
      by inversion Hcs.
    - eapply tr_bind; [by apply tr_visit_lines|]. intros cs n1 Hn1 Hcs. simpl in Hcs.
      apply tr_ret; [done|]. apply closed_append; [apply HE|by eapply Hm|by apply HE].
    - unfold visit_invoke. eapply (tr_bind I X PP n _ _ (λ _ _, True)).
      { apply tr_upd; [done|]. intros h HI _. by apply HE. }
      intros _ n1 Hn1 _. eapply tr_bind; [by apply (tr_heap I X PP n1 (λ _ _, True))|]. intros h n2 Hn2 _.
      destruct (h !! self) as [x|]; [|by apply tr_fail].
      eapply (tr_bind I X PP n2 _ _ (λ _ _, True)).
      { destruct (file_path h self); [by apply tr_ret|by apply tr_fail]. }
      intros f n3 Hn3 _.
      destruct (find_method E (s_factories x) (method_name fn)) as [m|] eqn:Hfm; [|apply tr_fail, HE].
      destruct (arity_ok m (length args)); [|apply tr_fail, HE].
      eapply tr_bind.
      { apply (tr_map I X PP n3 _ _ (λ k _ a, qarg Q k a)).
        - intros _ a b [?|c|?] Hk; simpl; try done. by apply Hm.
        - intros [ty nd] n' _ Hn'. simpl. apply tr_convert; [lia|apply IH]. }
      intros argv n4 Hn4 HF. destruct (existsb is_zero argv) eqn:Hz; [by apply tr_fail|].
      apply find_method_some in Hfm as (g & _ & Hg).
      eapply tr_bind; [eapply (ei_methods _ _ _ _ _ HE); [apply IH|done|lia| |exact Hz]|].
      { clear -HF. induction HF; constructor; auto. }
      intros rets n5 Hn5 Hrets. simpl in Hrets. apply tr_handle_results; [|done]. eapply Hm; [|done]. lia.
  Qed.
End inv2.
