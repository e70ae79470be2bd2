(** The interpreter of Peg.v agrees with the recursive-descent parser of
    Descent.v, and no semantic action panics. *)
From Coq Require Import Ascii String NArith Lia.
From stdpp Require Import base tactics relations strings numbers list.
From Verif Require Import GoBase Ast Utf8 Peg StrProofs PegBase PegTotal Descent.
Local Open Scope string_scope.
Local Open Scope list_scope.

(** A family of parsers (indexed by depth) settles on a result. *)
Definition ev {A} (p : nat → parser A) (c : cursor) (s : store) (r : out A) : Prop :=
  ∃ n0, ∀ n, n0 ≤ n → p n c s = r.

Lemma ev_const {A} (p : parser A) c s r : p c s = r → ev (λ _, p) c s r.
Proof. exists 0. auto. Qed.

Lemma ev_fun {A} (p : nat → parser A) c s r r' : ev p c s r → ev p c s r' → r = r'.
Proof.
  intros [n H] [n' H']. rewrite <- (H (Nat.max n n')) by lia. by apply H'; lia.
Qed.

Lemma ev_bind {A B} (p : nat → parser A) (f : nat → A → parser B) c s a c' s' r :
  ev p c s (Match a c' s') → ev (λ n, f n a) c' s' r → ev (λ n, pbind (p n) (f n)) c s r.
Proof.
  intros [n H] [n' H']. exists (Nat.max n n'). intros m Hm. unfold pbind.
  rewrite H by lia. apply H'. lia.
Qed.
Lemma ev_bind_fail {A B} (p : nat → parser A) (f : nat → A → parser B) c s s' :
  ev p c s (Fail s') → ev (λ n, pbind (p n) (f n)) c s (Fail s').
Proof. intros [n H]. exists n. intros m Hm. unfold pbind. by rewrite H. Qed.

Lemma ev_alt_l {A} (p q : nat → parser A) c s a c' s' :
  ev p c s (Match a c' s') → ev (λ n, palt (p n) (q n)) c s (Match a c' s').
Proof. intros [n H]. exists n. intros m Hm. unfold palt. by rewrite H. Qed.
Lemma ev_alt_r {A} (p q : nat → parser A) c s s' r :
  ev p c s (Fail s') → ev q c s' r → ev (λ n, palt (p n) (q n)) c s r.
Proof.
  intros [n H] [n' H']. exists (Nat.max n n'). intros m Hm. unfold palt.
  rewrite H by lia. apply H'. lia.
Qed.
Lemma ev_opt_some {A} (p : nat → parser A) c s a c' s' :
  ev p c s (Match a c' s') → ev (λ n, popt (p n)) c s (Match (Some a) c' s').
Proof. intros [n H]. exists n. intros m Hm. unfold popt. by rewrite H. Qed.
Lemma ev_opt_none {A} (p : nat → parser A) c s s' :
  ev p c s (Fail s') → ev (λ n, popt (p n)) c s (Match None c s').
Proof. intros [n H]. exists n. intros m Hm. unfold popt. by rewrite H. Qed.
Lemma ev_not_fail {A} (p : nat → parser A) c s a c' s' :
  ev p c s (Match a c' s') → ev (λ n, pnot (p n)) c s (Fail s').
Proof. intros [n H]. exists n. intros m Hm. unfold pnot. by rewrite H. Qed.
Lemma ev_not {A} (p : nat → parser A) c s s' :
  ev p c s (Fail s') → ev (λ n, pnot (p n)) c s (Match tt c s').
Proof. intros [n H]. exists n. intros m Hm. unfold pnot. by rewrite H. Qed.

(** ** Agreement *)

(** Below depth [K], parsing [e] with variables [m] agrees with [p]: same
    outcome, position and store, and value and variables related by [F]. *)
Definition agree1 {A} (F : val → env → A → Prop) (p : nat → parser A) (st : pstate) (r : res) : Prop :=
  match r with
  | RDeep => True
  | RPanic _ => False
  | RDone (Some v) m' st' =>
    ∃ a, F v m' a ∧ ev p (p_pt st) (p_store st) (Match a (p_pt st') (p_store st'))
  | RDone None _ st' => p_pt st' = p_pt st ∧ ev p (p_pt st) (p_store st) (Fail (p_store st'))
  end.

Definition agreeE {A} (K : nat) (e : expr) (m : env) (p : nat → parser A) (F : val → env → A → Prop) : Prop :=
  ∀ k st, k < K → agree1 F p st (parse_expr k e m st).

(** Expressions that leave the variables alone. *)
Definition agree {A} (K : nat) (e : expr) (p : nat → parser A) (V : val → A → Prop) : Prop :=
  ∀ m, agreeE K e m p (λ v m' a, m' = m ∧ V v a).

(** Expressions whose variables are dropped. *)
Definition agree0 {A} (K : nat) (e : expr) (p : nat → parser A) (V : val → A → Prop) : Prop :=
  agreeE K e [] p (λ v _ a, V v a).

Lemma agree_0 {A} K e (p : nat → parser A) V : agree K e p V → agree0 K e p V.
Proof.
  intros H k st Hk. specialize (H [] k st Hk). unfold agree1 in *.
  destruct (parse_expr _ _ _ _) as [| |[v|] m' st']; try done.
  destruct H as (a & [_ Hv] & Hev). eauto 6.
Qed.

Definition junk {A} (v : val) (a : A) : Prop := True.

Lemma agree_mono {A} K K' e (p : nat → parser A) V : K ≤ K' → agree K' e p V → agree K e p V.
Proof. intros H Ha m k st Hk. apply Ha. lia. Qed.

Lemma agree_weaken {A} K e (p : nat → parser A) (V V' : val → A → Prop) :
  (∀ v a, V v a → V' v a) → agree K e p V → agree K e p V'.
Proof.
  intros H Ha m k st Hk. specialize (Ha m k st Hk). unfold agree1 in *.
  destruct (parse_expr _ _ _ _) as [| |[v|] m' st']; try done.
  destruct Ha as (a & [-> Hv] & Hev). eauto 6.
Qed.

Ltac unfold_parse k :=
  destruct k as [|k]; [exact I|];
  match goal with |- context [parse_expr (S k) ?e ?m ?st] =>
    change (parse_expr (S k) e m st) with (parse_body (parse_expr k) e m st); unfold parse_body end.

Lemma agree_rule {A} K r (p : nat → parser A) V : agree0 K (rule_expr r) p V → agree (S K) (ERule r) p V.
Proof.
  intros H m k st Hk. unfold_parse k.
  specialize (H k st ltac:(lia)). unfold agree1 in *.
  destruct (parse_expr _ _ _ _) as [| |[v|] m' st']; try done.
  destruct H as (a & Hv & Hev). eauto 6.
Qed.

(** An action whose value depends on the variables only. *)
Lemma agree_act {A B} K a e m (p : nat → parser A) (F : val → env → A → Prop) (V : val → B → Prop) (q : nat → parser B) :
  agreeE K e m p F →
  (∀ v m' x c c' s, F v m' x → ∃ w s' y, run_action a m' (cur_loc c) (slice c c') s = (Some w, s') ∧
     V w y ∧ ∀ n s0, p n c s0 = Match x c' s → q n c s0 = Match y c' s') →
  (∀ n c s s', p n c s = Fail s' → q n c s = Fail s') →
  agreeE K (EAct a e) m q (λ v _ y, V v y).
Proof.
  intros H Ha Hf k st Hk. unfold_parse k.
  specialize (H k st ltac:(lia)). unfold agree1 in *.
  destruct (parse_expr _ _ _ _) as [| |[v|] m' st']; try done.
  - destruct H as (x & HF & [n0 Hn0]).
    destruct (Ha v m' x (p_pt st) (p_pt st') (p_store st') HF) as (w & s' & y & -> & Hw & Hq).
    exists y. split; [done|]. exists n0. intros n Hn. apply Hq. by apply Hn0.
  - destruct H as [Hp [n0 Hn0]]. split; [done|]. exists n0. intros n Hn. apply Hf. by apply Hn0.
Qed.

Lemma agree_act_env {A} K a e m (p : nat → parser A) (F : val → env → A → Prop) (V : val → A → Prop) :
  agreeE K e m p F →
  (∀ v m' x l t s, F v m' x → ∃ w, run_action a m' l t s = (Some w, s) ∧ V w x) →
  agreeE K (EAct a e) m p (λ v _ y, V v y).
Proof.
  intros H Ha. eapply agree_act; [exact H| |done].
  intros v m' x c c' s HF. destruct (Ha v m' x (cur_loc c) (slice c c') s HF) as (w & Hw & HV).
  eauto 8.
Qed.

Lemma agreeE_lab {A} K x e m (p : nat → parser A) V :
  agree0 K e p V → agreeE K (ELab x e) m p (λ v m' a, m' = env_set x v m ∧ V v a).
Proof.
  intros H k st Hk. unfold_parse k. specialize (H k st ltac:(lia)). unfold agree1 in *.
  destruct (parse_expr _ _ _ _) as [| |[v|] m' st']; try done.
  destruct H as (a & Hv & Hev). eauto 6.
Qed.

Lemma agree_opt {A} K e (p : nat → parser A) V : agree0 K e p V →
  agree K (EOpt e) (λ n, popt (p n)) (λ v o, match o with Some a => V v a | None => v = VNil end).
Proof.
  intros H m k st Hk. unfold_parse k. specialize (H k st ltac:(lia)). unfold agree1 in *.
  destruct (parse_expr _ _ _ _) as [| |[v|] m' st']; try done.
  - destruct H as (a & Hv & Hev). exists (Some a). split; [done|]. by apply ev_opt_some.
  - destruct H as [Hp Hev]. exists None. split; [done|]. rewrite Hp. by apply ev_opt_none.
Qed.

Lemma agree_not {A} K e (p : nat → parser A) V : lits_ascii e = true → agree0 K e p V →
  agree K (ENot e) (λ n, pnot (p n)) junk.
Proof.
  intros Hl H m k st Hk. unfold_parse k. specialize (H k (flip_inv st) ltac:(lia)).
  pose proof (parse_moves k e Hl [] (flip_inv st)) as Hm. unfold agree1 in *.
  destruct (parse_expr _ _ _ _) as [| |r m' st']; try done.
  destruct (Hm _ _ _ eq_refl) as [Hr Hn]. rewrite pt_flip in *.
  destruct r as [v|].
  - destruct H as (a & _ & Hev). split; [by apply pt_restore|]. rewrite store_restore.
    by eapply ev_not_fail.
  - destruct H as [Hp Hev]. exists tt. split; [done|].
    rewrite store_restore, pt_restore by done. by apply ev_not.
Qed.

Lemma agree_choice {A} K l (ps : list (nat → parser A)) (V : val → A → Prop) (p : nat → parser A) :
  Forall2 (λ e p, agree0 K e p V) l ps →
  (∀ n c s, p n c s = foldr (λ p q, palt (p n) q) (λ _ s, Fail s) ps c s) →
  agree K (EChoice l) p V.
Proof.
  intros H Hp m k st Hk. unfold_parse k.
  assert (agree1 (λ v m' a, m' = m ∧ V v a)
    (λ n, foldr (λ p q, palt (p n) q) (λ _ s, Fail s) ps) st (choice_loop (parse_expr k) l m st)) as Hc.
  2:{ unfold agree1 in *. destruct (choice_loop _ _ _ _) as [| |[v|] m' st']; try done.
      - destruct Hc as (a & Hv & n0 & Hn0). exists a. split; [done|]. exists n0. intros. rewrite Hp. auto.
      - destruct Hc as (Hpt & n0 & Hn0). split; [done|]. exists n0. intros. rewrite Hp. auto. }
  clear Hp p. revert st. induction H as [|e p l ps He _ IH]; intros st; simpl.
  { split; [done|]. by apply (ev_const (λ (_ : cursor) s, Fail s)). }
  specialize (He k st ltac:(lia)). unfold agree1 in He.
  destruct (parse_expr k e [] st) as [| |[v|] m' st']; try done.
  - destruct He as (a & Hv & Hev). exists a. split; [done|]. by apply ev_alt_l.
  - destruct He as [Hp Hev]. specialize (IH st'). unfold agree1 in IH |- *. rewrite Hp in IH.
    destruct (choice_loop _ _ _ _) as [| |[v|] m2 st2]; try done.
    + destruct IH as (a & Hv & Hev'). exists a. split; [done|]. by eapply ev_alt_r.
    + destruct IH as (Hpt & Hev'). split; [done|]. by eapply ev_alt_r.
Qed.

Lemma agree_many_loop {A} K e (p : nat → parser A) V k : agree0 K e p V → k < K → ∀ R vacc acc st,
  Forall2 V vacc acc →
  match many_loop (parse_expr k) R e vacc st with
  | RDeep => True
  | RPanic _ => False
  | RDone r _ st' => ∃ vs l, r = Some (VList vs) ∧ Forall2 V vs l ∧
      ev (λ n, pmany_go (p n) R acc) (p_pt st) (p_store st) (Match l (p_pt st') (p_store st'))
  end.
Proof.
  intros H Hk R. induction R as [|R IH]; intros vacc acc st Hacc; simpl; [done|].
  specialize (H k st Hk). unfold agree1 in H.
  destruct (parse_expr k e [] st) as [| |[v|] m' st']; try done.
  - destruct H as (a & Hv & n0 & Hn0).
    specialize (IH (vacc ++ [v]) (acc ++ [a]) st').
    destruct (many_loop _ _ _ _ _) as [| |r m2 st2]; try done.
    { apply IH. apply Forall2_app; [done|by constructor]. }
    destruct IH as (vs & l & -> & Hvs & n1 & Hn1); [apply Forall2_app; [done|by constructor]|].
    exists vs, l. split_and!; [done|done|]. exists (Nat.max n0 n1). intros n Hn. simpl.
    rewrite Hn0 by lia. apply Hn1. lia.
  - destruct H as (Hp & n0 & Hn0). exists vacc, acc. split_and!; [done|done|].
    exists n0. intros n Hn. simpl. rewrite Hn0 by done. by rewrite Hp.
Qed.

Definition VL {A} (V : val → A → Prop) (v : val) (l : list A) : Prop := ∃ vs, v = VList vs ∧ Forall2 V vs l.

Lemma agree_star {A} K e (p : nat → parser A) V : agree0 K e p V →
  agree K (EStar e) (λ n, pmany (p n)) (VL V).
Proof.
  intros H m k st Hk. unfold_parse k.
  pose proof (agree_many_loop K e p V k H ltac:(lia) (rounds st) [] [] st ltac:(constructor)) as Hl.
  unfold agree1. destruct (many_loop _ _ _ _ _) as [| |r m2 st2]; try done.
  destruct Hl as (vs & l & -> & Hvs & Hev). exists l. split; [|done]. split; [done|]. by exists vs.
Qed.

Lemma agree_plus {A} K e (p : nat → parser A) V : lits_ascii e = true → agree0 K e p V →
  agree K (EPlus e) (λ n, pmany1 (p n)) (λ v l, VL V v l ∧ l ≠ []).
Proof.
  intros Hl H m k st Hk. unfold_parse k.
  pose proof (agree_many_loop K e p V k H ltac:(lia) (rounds st) [] [] st ltac:(constructor)) as Hm.
  pose proof (many_loop_moves (parse_expr k) e (rounds st) (parse_moves k e Hl) [] st) as Hmv.
  unfold agree1. destruct (many_loop _ _ _ _ _) as [| |r m2 st2]; try done.
  destruct Hm as (vs & l & -> & Hvs & n0 & Hn0).
  destruct (Hmv _ _ _ eq_refl) as (_ & l' & [= ->] & Hpt). change ([] ++ l') with l' in *.
  destruct Hvs as [|v x l' l Hv Hvs].
  - split; [by apply Hpt|]. exists n0. intros n Hn. unfold pmany1, pmany.
    change (S _) with (rounds st). by rewrite Hn0.
  - exists (x :: l). split; [split; [done|split; [|done]]; eexists; split; [done|]; by constructor|].
    exists n0. intros n Hn. unfold pmany1, pmany. change (S _) with (rounds st). by rewrite Hn0.
Qed.

(** Sequences. *)
Definition agreeS {A} (K : nat) (l : list expr) (m : env) (p : nat → parser A) (F : env → A → Prop) : Prop :=
  ∀ k pt acc st, k < K → reach pt (p_pt st) →
  match seq_loop (parse_expr k) pt l acc m st with
  | RDeep => True
  | RPanic _ => False
  | RDone (Some v) m' st' =>
    ∃ a, F m' a ∧ ev p (p_pt st) (p_store st) (Match a (p_pt st') (p_store st'))
  | RDone None _ st' => p_pt st' = pt ∧ ev p (p_pt st) (p_store st) (Fail (p_store st'))
  end.

Lemma agree_seq {A} K l m (p : nat → parser A) F : agreeS K l m p F →
  agreeE K (ESeq l) m p (λ _ m' a, F m' a).
Proof.
  intros H k st Hk. unfold_parse k. apply H; [lia|apply reach_refl].
Qed.

Lemma agreeS_nil {A} K m (a : A) (F : env → A → Prop) : F m a → agreeS K [] m (λ _, pret a) F.
Proof. intros H k pt acc st Hk Hr. simpl. exists a. split; [done|]. by apply ev_const. Qed.

Lemma agreeS_step {A B} K e l m (p : nat → parser A) (q : nat → A → parser B) (G : val → env → A → Prop) (F : env → B → Prop) :
  lits_ascii e = true → agreeE K e m p G →
  (∀ v m' a, G v m' a → agreeS K l m' (λ n, q n a) F) →
  agreeS K (e :: l) m (λ n, pbind (p n) (q n)) F.
Proof.
  intros Hl He Hq k pt acc st Hk Hr. simpl. specialize (He k st Hk).
  pose proof (parse_moves k e Hl m st) as Hm. unfold agree1 in He.
  destruct (parse_expr k e m st) as [| |[v|] m' st']; try done.
  - destruct (Hm _ _ _ eq_refl) as [Hmv _]. destruct He as (a & HG & Hev).
    specialize (Hq v m' a HG k pt (acc ++ [v]) st' Hk (reach_trans _ _ _ Hr Hmv)).
    destruct (seq_loop _ _ _ _ _ _) as [| |[w|] m2 st2]; try done.
    + destruct Hq as (b & HF & Hev'). exists b. split; [done|]. by eapply ev_bind.
    + destruct Hq as (Hp & Hev'). split; [done|]. by eapply ev_bind.
  - destruct He as (Hp & Hev). split; [apply pt_restore; by rewrite Hp|].
    rewrite store_restore. by apply ev_bind_fail.
Qed.

Lemma agreeS_plain {A B} K e l m (p : nat → parser A) (q : nat → A → parser B) V (F : env → B → Prop) :
  lits_ascii e = true → agree K e p V →
  (∀ v a, V v a → agreeS K l m (λ n, q n a) F) →
  agreeS K (e :: l) m (λ n, pbind (p n) (q n)) F.
Proof.
  intros Hl He Hq. eapply agreeS_step; [done|apply He|]. intros v m' a [-> Hv]. eauto.
Qed.
Lemma agreeS_lab {A B} K x e l m (p : nat → parser A) (q : nat → A → parser B) V (F : env → B → Prop) :
  lits_ascii e = true → agree0 K e p V →
  (∀ v a, V v a → agreeS K l (env_set x v m) (λ n, q n a) F) →
  agreeS K (ELab x e :: l) m (λ n, pbind (p n) (q n)) F.
Proof.
  intros Hl He Hq. eapply agreeS_step; [done|by apply agreeE_lab|]. intros v m' a [-> Hv]. eauto.
Qed.
(** The last element: no continuation needed. *)
Lemma agreeS_last {A} K e m (p : nat → parser A) V (F : env → A → Prop) :
  lits_ascii e = true → agree K e p V → (∀ v a, V v a → F m a) →
  agreeS K [e] m p F.
Proof.
  intros Hl He HF k pt acc st Hk Hr. simpl. specialize (He m k st Hk). unfold agree1 in He.
  destruct (parse_expr k e m st) as [| |[v|] m' st']; try done.
  - destruct He as (a & [-> Hv] & Hev). eauto.
  - destruct He as (Hp & Hev). split; [apply pt_restore; by rewrite Hp|]. by rewrite store_restore.
Qed.
Lemma agreeS_last_lab {A} K x e m (p : nat → parser A) V (F : env → A → Prop) :
  lits_ascii e = true → agree0 K e p V → (∀ v a, V v a → F (env_set x v m) a) →
  agreeS K [ELab x e] m p F.
Proof.
  intros Hl He HF k pt acc st Hk Hr. simpl. pose proof (agreeE_lab K x e m p V He k st Hk) as H.
  unfold agree1 in H.
  destruct (parse_expr k (ELab x e) m st) as [| |[v|] m' st']; try done.
  - destruct H as (a & [-> Hv] & Hev). eauto.
  - destruct H as (Hp & Hev). split; [apply pt_restore; by rewrite Hp|]. by rewrite store_restore.
Qed.

(** ** Characters *)

Lemma lit_loop_plit w start st : ascii_only w = true → reach start (p_pt st) →
  match lit_loop w start st with
  | (Some st', _) => plit_go w (p_pt st) = Some (p_pt st') ∧ p_store st' = p_store st
  | (None, st') => plit_go w (p_pt st) = None ∧ p_pt st' = start ∧ p_store st' = p_store st
  end.
Proof.
  revert st. induction w as [|a w IH]; intros st Ha Hr; simpl; [done|].
  unfold ascii_only in Ha. simpl in Ha. apply andb_true_iff in Ha as [Ha Hw]. apply N.ltb_lt in Ha.
  destruct (N.eqb_spec (cur_rn (p_pt st)) (byte a)) as [E|E].
  - specialize (IH (read st) Hw). rewrite pt_read, store_read in IH. apply IH.
    eapply reach_trans; [done|]. apply reach_next.
    apply cur_ascii in E as (b & r & -> & _); done.
  - split_and!; [done|apply pt_restore; by rewrite pt_fail|by rewrite store_restore, store_fail].
Qed.

Lemma agree_lit K w : ascii_only w = true → agree K (ELit w) (λ _, plit w) junk.
Proof.
  intros Hw m k st Hk. unfold_parse k. pose proof (lit_loop_plit w (p_pt st) st Hw (reach_refl _)) as H.
  unfold agree1. destruct (lit_loop _ _ _) as [[st'|] st2].
  - destruct H as [H1 H2]. exists tt. split; [done|]. rewrite pt_fail, store_fail.
    apply ev_const. unfold plit. by rewrite H1, H2.
  - destruct H as (H1 & H2 & H3). split; [done|]. apply ev_const. unfold plit. by rewrite H1, H3.
Qed.

Lemma agree_class K q : agree K (EClass q) (λ _, pclass q) junk.
Proof.
  intros m k st Hk. unfold_parse k. unfold agree1.
  destruct (at_end (p_pt st)) eqn:E.
  { rewrite pt_fail, store_fail. split; [done|]. apply ev_const. unfold pclass. by rewrite E. }
  destruct (class_match q _) eqn:E2.
  - exists tt. split; [done|]. rewrite pt_fail, store_fail, pt_read, store_read.
    apply ev_const. unfold pclass. by rewrite E, E2.
  - rewrite pt_fail, store_fail. split; [done|]. apply ev_const. unfold pclass. by rewrite E, E2.
Qed.

Lemma agree_any K : agree K EAny (λ _, pany) junk.
Proof.
  intros m k st Hk. unfold_parse k. unfold agree1.
  destruct (at_end (p_pt st)) eqn:E.
  { rewrite pt_fail, store_fail. split; [done|]. apply ev_const. unfold pany. by rewrite E. }
  exists tt. split; [done|]. rewrite pt_fail, store_fail, pt_read, store_read.
  apply ev_const. unfold pany. by rewrite E.
Qed.

(** The bytes of a run of characters. *)
Lemma slice_refl c : slice c c = "".
Proof. unfold slice. by rewrite Nat.sub_diag. Qed.
Lemma stake_plus a b s : stake (a + b) s = stake a s +:+ stake b (sdrop a s).
Proof. revert s. induction a as [|a IH]; intros [|x s]; simpl; [done|done|by destruct b|]. by rewrite IH. Qed.
Lemma sdrop_plus a b s : sdrop (a + b) s = sdrop b (sdrop a s).
Proof. revert s. induction a as [|a IH]; intros [|x s]; simpl; [done|done|by destruct b|apply IH]. Qed.

Lemma reach_rest c c' : reach c c' → c_rest c' = sdrop (c_off c' - c_off c) (c_rest c) ∧ c_off c ≤ c_off c'.
Proof.
  induction 1 as [|c c1 c' [Hc ->] H [IH1 IH2]]; [by rewrite Nat.sub_diag|].
  rewrite next_off, next_rest in *. split; [|lia]. rewrite IH1, <- sdrop_plus. f_equal. lia.
Qed.
Lemma slice_app c1 c2 c3 : reach c1 c2 → reach c2 c3 → slice c1 c3 = slice c1 c2 +:+ slice c2 c3.
Proof.
  intros H1 H2. apply reach_rest in H1 as [E1 L1]. apply reach_rest in H2 as [_ L2].
  unfold slice. rewrite E1. rewrite <- stake_plus. f_equal. lia.
Qed.
Lemma slice_rest c c' : reach c c' → c_rest c = slice c c' +:+ c_rest c'.
Proof.
  intros H. apply reach_rest in H as [-> _]. unfold slice. generalize (c_off c' - c_off c) (c_rest c).
  intros n. induction n as [|n IH]; intros [|a s]; simpl; [done|done|done|]. by rewrite <- IH.
Qed.
Lemma sconcat_app a b : sconcat (a ++ b) = sconcat a +:+ sconcat b.
Proof. induction a as [|x a IH]; simpl; [done|]. rewrite IH. by rewrite sapp_assoc. Qed.

Lemma class_run_loop k q R acc c0 st : reach c0 (p_pt st) → sconcat acc = slice c0 (p_pt st) →
  match many_loop (parse_expr k) R (EClass q) (map VBytes acc) st with
  | RDone (Some v) _ st' => ∃ bs, v = VList (map VBytes bs) ∧ sconcat bs = slice c0 (p_pt st')
  | _ => True
  end.
Proof.
  revert acc st. induction R as [|R IH]; intros acc st Hr Hacc; simpl; [done|].
  destruct k as [|k]; [done|].
  change (parse_expr (S k) (EClass q) [] st) with (parse_body (parse_expr k) (EClass q) [] st).
  unfold parse_body. destruct (at_end (p_pt st)) eqn:E; [|destruct (class_match q _)].
  - exists acc. by rewrite pt_fail.
  - specialize (IH (acc ++ [slice (p_pt st) (p_pt (read st))]) (fail_at true (cur_loc (p_pt st)) (read st))).
    rewrite map_app in IH. apply IH; rewrite pt_fail, pt_read.
    + eapply reach_trans; [done|]. apply reach_next. by apply class_end.
    + rewrite sconcat_app, Hacc. simpl. rewrite sapp_nil_r.
      symmetry. apply slice_app; [done|]. apply reach_next. by apply class_end.
  - exists acc. by rewrite pt_fail.
Qed.

Lemma mapM_bytes bs : mapM as_bytes (map VBytes bs) = Some bs.
Proof. induction bs as [|b bs IH]; simpl; [done|]. by rewrite IH. Qed.

Lemma iface_str_bytes bs : iface_str (VList (map VBytes bs)) = Some (sconcat bs).
Proof. unfold iface_str. simpl. by rewrite mapM_bytes. Qed.

(** A run of characters whose value is used as a string. *)
Lemma agree_name K q : agree K (EPlus (EClass q)) (λ _, ptext (pmany1 (pclass q)))
  (λ v t, iface_str v = Some t).
Proof.
  intros m k st Hk.
  pose proof (agree_plus K (EClass q) (λ _, pclass q) junk eq_refl (agree_0 _ _ _ _ (agree_class K q)) m k st Hk) as H.
  destruct k as [|k]; [exact I|]. 
  change (parse_expr (S k) (EPlus (EClass q)) m st) with (parse_body (parse_expr k) (EPlus (EClass q)) m st) in *.
  unfold parse_body in *.
  pose proof (class_run_loop k q (rounds st) [] (p_pt st) st (reach_refl _)) as Hb.
  simpl map in Hb. unfold agree1 in *.
  destruct (many_loop _ _ _ _ _) as [| |[v|] m2 st2]; try done.
  2:{ destruct H as [H1 [n0 H2]]. split; [done|]. exists n0. intros n Hn. unfold ptext. by rewrite (H2 n Hn). }
  destruct Hb as (bs & -> & Hbs); [by rewrite slice_refl|].
  destruct bs as [|b bs]; simpl map in *; cbv iota in H |- *.
  - destruct H as [H1 [n0 H2]]. split; [done|]. exists n0. intros n Hn. unfold ptext. by rewrite (H2 n Hn).
  - destruct H as (l & [_ _] & n0 & H2). exists (slice (p_pt st) (p_pt st2)). split.
    + split; [done|]. rewrite <- Hbs. exact (iface_str_bytes (b :: bs)).
    + exists n0. intros n Hn. unfold ptext. by rewrite (H2 n Hn).
Qed.
