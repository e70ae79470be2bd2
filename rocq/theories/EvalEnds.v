(** How evaluation of documents using the base plugin ends: what the result is, and
    the only ways to panic and not to end. *)
From Coq Require Import Ascii String Lia.
From stdpp Require Import base tactics relations strings list.
From Verif Require Import GoBase StrProofs Ast Content Section ContentSpec ContentProofs TreeSpec TreeProofs TagProofs QueryProofs
  Evaluate EvalProofs EvalFrame EvalInv BaseInv BaseFacts HtmlLoad HtmlProofs Sound EndSpec Paths.
Local Open Scope string_scope.
Local Open Scope list_scope.

(** ** Files of sections *)

Inductive in_file (h : heap) : nat → string → Prop :=
| in_own i x : h !! i = Some x → s_path x ≠ "" → in_file h i (s_path x)
| in_parent i x p f : h !! i = Some x → s_path x = "" → s_parent x = Some p → in_file h p f → in_file h i f.

Lemma in_file_valid h i f : in_file h i f → i < length h.
Proof. destruct 1; by eapply lookup_lt_Some. Qed.

(** Enough recursion is allowed for. *)
Lemma file_path_fuel h : sturdy h → ∀ n i f, in_file h i f → i < n → gofix (file_path_F h) n i = Some f.
Proof.
  intros HS n. induction n as [|n IH]; intros i f Hf Hi; [lia|]. simpl. unfold file_path_F at 1.
  inversion Hf as [? x Hx Hp|? x p ? Hx Hp Hpar Hf']; subst; rewrite Hx; simpl.
  - destruct (String.eqb_spec (s_path x) ""); done.
  - rewrite Hp. simpl. rewrite Hpar. destruct (HS _ _ Hx) as (_ & _ & _ & _ & H). apply H in Hpar. apply IH; [done|lia].
Qed.
Lemma in_file_path h i f : sturdy h → in_file h i f → file_path h i = Some f.
Proof. intros HS Hf. apply file_path_fuel; [done|done|]. apply in_file_valid in Hf. unfold fuel_of. lia. Qed.

Lemma path_clean_nonempty p : path_clean p ≠ "".
Proof.
  destruct p as [|c p]; [done|]. unfold path_clean. destruct (has_prefix "/" (String c p)); [done|]. cbv zeta.
  destruct (String.eqb_spec (sjoin "/" (rev (clean_go false (ssplit slash (String c p)) []))) ""); done.
Qed.
Lemma path_join_nonempty f p : path_join (path_dir f) p ≠ "".
Proof.
  unfold path_join. destruct (String.eqb_spec (path_dir f) "") as [E|_]; [by apply path_clean_nonempty in E|].
  destruct (String.eqb p ""); apply path_clean_nonempty.
Qed.

(** Sections, once created, stay where they are. *)
Definition pres (s s' : st) : Prop :=
  length (st_heap s) ≤ length (st_heap s') ∧ ∀ i f, in_file (st_heap s) i f → in_file (st_heap s') i f.
Lemma pres_refl s : pres s s.
Proof. done. Qed.
Lemma pres_trans a b c : pres a b → pres b c → pres a c.
Proof. intros [L1 H1] [L2 H2]. split; [lia|auto]. Qed.

Lemma in_file_step h h' : (∀ i x, h !! i = Some x → ∃ x', h' !! i = Some x' ∧ s_path x' = s_path x ∧ s_parent x' = s_parent x) →
  ∀ i f, in_file h i f → in_file h' i f.
Proof.
  intros H i f. induction 1 as [i x Hx Hp|i x p f Hx Hp Hpar _ IH]; destruct (H i x Hx) as (x' & Hx' & E1 & E2).
  - rewrite <- E1. apply in_own; congruence.
  - eapply in_parent; [exact Hx'|congruence|rewrite E2; exact Hpar|done].
Qed.
Lemma pres_upd i f s c : (∀ x, s_path (f x) = s_path x ∧ s_parent (f x) = s_parent x) → pres s (St (upd (st_heap s) i f) c).
Proof.
  intros Hf. split; simpl; [by rewrite upd_length|]. apply in_file_step. intros j x Hx. rewrite upd_lookup, Hx.
  destruct (decide (i = j)); simpl; eexists; (split; [reflexivity|]); [apply Hf|done].
Qed.
Lemma pres_alloc s y c : pres s (St (st_heap s ++ [y]) c).
Proof.
  split; simpl; [rewrite app_length; lia|]. apply in_file_step. intros i x Hx. exists x. split; [by apply lookup_app_l_Some|done].
Qed.

(** ** Contents that can be stripped, wherever they are used *)

Fixpoint whole (c : content) : bool :=
  match c with
  | CSeq l | CPara l | CPre l | CList l _ => forallb whole l
  | CRef _ _ rc _ _ => match rc with Some c => whole c | None => false end
  | CLink c _ | CAux c => whole c
  | CStyled _ _ c ps => whole c && match ps with [] => true | _ => false end
  | CTarget _ _ ti x =>
    match ti with Some c => whole c | None => false end && match x with Some c => whole c | None => false end
  | CTable rows => forallb (forallb whole) rows
  | CDefs defs => forallb (λ p, match p with (s, d) => whole s && whole d end) defs
  | CString _ | CSection _ | CToc _ | CImage _ _ | CLazy _ _ => true
  end.

Lemma whole_strips c : whole c = true → is_Some (strip_aux c).
Proof.
  rewrite strip_total.
  assert (∀ l, Forall (λ c, whole c = true → strippable c = true) l → forallb whole l = true →
    forallb (λ x, is_aux x || strippable x) l = true) as L.
  { intros l IH. apply forallb_mono. eapply Forall_impl; [exact IH|]. intros x Hx Hw. rewrite Hx by done. by rewrite orb_true_r. }
  induction c as [s|l IH|l IH|l IH|sec t rc o l IH|c t IH|s|s|st b c ps IH IHps|t l ti x IHt IHx|p d|l o IH|rows IH|defs IH|b t|c IH]
    using content_ind'; cbn [whole strippable]; auto.
  - destruct rc; auto.
  - rewrite !andb_true_iff. intros [? ?]. split; [auto|]. by destruct ps.
  - rewrite !andb_true_iff. intros [? ?]. split; [destruct ti|destruct x]; auto.
  - apply forallb_mono. eapply Forall_impl; [exact IH|]. auto.
  - apply forallb_mono. eapply Forall_impl; [exact IH|]. intros [a b] [Ha Hb]. simpl in *. rewrite !andb_true_iff. naive_solver.
Qed.

Lemma strip_sound n c : StripP (λ c c', sound n c = true → sound n c' = true) c.
Proof.
  assert (∀ l l', Forall (StripP (λ c c', sound n c = true → sound n c' = true)) l → strip_list l = Some l' →
    forallb (sound n) l = true → forallb (sound n) l' = true) as L.
  { intros l l' IH E H. pose proof (strip_list_Forall2 _ _ _ IH E) as F.
    assert (forallb (sound n) (keep l) = true) as K.
    { rewrite forallb_forall in H |- *. intros x Hx. apply H. unfold keep in Hx. by apply filter_In in Hx as [Hx _]. }
    clear -F K. induction F as [|x y k k' Hx F IH]; [done|]. simpl in *. apply andb_true_iff in K as [K1 K2].
    by rewrite Hx, IH. }
  induction c as [s|l IH|l IH|l IH|sec t rc o l IH|c t IH|s|s|st b c ps IH IHps|t l ti x IHt IHx|p d|l o IH|rows IH|defs IH|b t|c IH]
    using content_ind'; intros c' E; revert E; strip_rw; try (intros [= <-]; done).
  1-3,8: intros E; apply fmap_Some in E as (l' & El & ->); simpl; by apply L.
  - destruct rc as [rc|]; simpl; [|done]. destruct (strip_aux rc) eqn:E; simpl; [|done].
    intros [= <-]. simpl. rewrite !andb_true_iff. intros [? ?]. split; [done|]. by apply IH.
  - intros E. apply fmap_Some in E as (x & Ex & ->). simpl. by apply IH.
  - destruct (strip_aux c) eqn:E; simpl; [|done]. destruct (mapM _ _) as [ps'|] eqn:Eps; simpl; [|done].
    intros [= <-]. simpl. intros [H1 H2]%andb_true_iff. rewrite (IH _ E) by done. destruct ps; [|done].
    simpl in Eps. by injection Eps as <-.
  - destruct ti as [a|]; simpl; [|done]. destruct (strip_aux a) eqn:Ea; simpl; [|done].
    destruct x as [y|]; simpl; [|done]. destruct (strip_aux y) eqn:Ey; simpl; [|done].
    intros [= <-]. simpl. intros [H1 H2]%andb_true_iff. by rewrite (IHt _ Ea), (IHx _ Ey).
  - intros E. apply fmap_Some in E as (rs & Er & ->). simpl. apply mapM_Some_1 in Er.
    induction Er as [|r r' rs rs' Hr _ IHr]; simpl; [done|]. inversion IH; subst.
    intros [H1' H2']%andb_true_iff. rewrite IHr by done. rewrite andb_true_r. by eapply L.
  - intros E. apply fmap_Some in E as (ds & Ed & ->). simpl. apply mapM_Some_1 in Ed.
    induction Ed as [|r r' rs rs' Hr _ IHr]; simpl; [done|].
    inversion IH as [|? ? [H1 H2] H3]; subst. unfold strip_def in Hr. destruct r as [s d]. simpl in *.
    destruct (strip_aux s) eqn:E1; simpl in Hr; [|done].
    destruct (strip_aux d) eqn:E2; simpl in Hr; [|done]. injection Hr as <-.
    intros [[H1' H2']%andb_true_iff H3']%andb_true_iff. by rewrite (H1 _ E1), (H2 _ E2), IHr.
  - exact (IH c').
Qed.

(** ** Text of results *)

Fixpoint seq_text (l : list content) : option string :=
  match l with
  | [] => Some ""
  | CString s :: r => match seq_text r with Some t => Some (s +:+ t) | None => None end
  | _ => None
  end.
Definition ctext (c : content) : option string :=
  match c with CString s => Some s | CSeq l => seq_text l | _ => None end.
Definition ftext (o : option content) : option string := match o with None => Some "" | Some c => ctext c end.

Lemma seq_text_app l s t : seq_text l = Some t → seq_text (l ++ [CString s]) = Some (t +:+ s).
Proof.
  revert t. induction l as [|c l IH]; intros t; simpl.
  - intros [= <-]. simpl. by rewrite sapp_nil_r.
  - destruct c; try done. destruct (seq_text l) as [u|]; [|done]. intros [= <-]. rewrite (IH u eq_refl). by rewrite sapp_assoc.
Qed.
Lemma ftext_append o s t : ftext o = Some t → ftext (go_append o [Some (CString s)]) = Some (t +:+ s).
Proof.
  destruct o as [c|]; simpl; [|by intros [= <-]].
  destruct c; simpl; try done.
  - intros [= <-]. by rewrite sapp_nil_r.
  - apply seq_text_app.
Qed.
Lemma ctext_string similar broken h n c t : ctext c = Some t → cstring similar broken h n c = Ok t.
Proof.
  intros H. assert (∀ jump, cstring_F similar broken h jump c = Ok t) as Hj; [|destruct n; apply Hj]. intros jump.
  destruct c as [s|l| | | | | | | | | | | | | |]; try done; simpl in *; [by injection H as <-|].
  assert (∀ l t, seq_text l = Some t → ∃ ss, omapM (cstring_F similar broken h jump) l = Ok ss ∧ sconcat ss = t) as L.
  { clear. induction l as [|c l IH]; intros t; cbn [seq_text]; [intros [= <-]; by exists []|]. destruct c; try done.
    destruct (seq_text l) as [u|]; [|done]. intros [= <-]. destruct (IH u eq_refl) as (ss & E & <-). exists (s :: ss). split; [|done].
    change (omapM (cstring_F similar broken h jump) (CString s :: l)) with
      (obind (λ y, obind (λ ys, Ok (y :: ys)) (omapM (cstring_F similar broken h jump) l)) (cstring_F similar broken h jump (CString s))).
    by rewrite E. }
  destruct (L l t H) as (ss & E & <-). by rewrite E.
Qed.

(** ** Triples *)

(** Parsed files are those of the file system. *)
Definition cache_ok (E : env) (s : st) : Prop :=
  ∀ p nd t, assoc_get p (st_cache s) = Some (nd, t) → ∃ mt, e_fs E p = Some (mt, inl nd).

(** The titles of tags show no other titles. *)
Definition whole_tags (h : heap) : Prop :=
  ∀ i x t c, h !! i = Some x → t ∈ s_tags x → t_title t = Some c → whole c = true.

Definition good (E : env) (DT : Prop) (s : st) : Prop := sturdy (st_heap s) ∧ cache_ok E s ∧ (DT → whole_tags (st_heap s)).

Lemma whole_tags_upd h i f : (∀ x, s_tags (f x) = s_tags x) → whole_tags h → whole_tags (upd h i f).
Proof.
  intros Hf HW j x t c. rewrite upd_lookup. destruct (decide (i = j)); [|by eapply HW].
  destruct (h !! j) as [y|] eqn:Hy; simpl; [|done]. intros [= <-]. rewrite Hf. eapply HW, Hy.
Qed.

Lemma assoc_set_get {V} k (v : V) m k' : assoc_get k' (assoc_set k v m) = if String.eqb k k' then Some v else assoc_get k' m.
Proof.
  induction m as [|[a b] m IH]; simpl; [done|]. destruct (String.eqb_spec a k) as [->|Hne]; simpl.
  - by destruct (String.eqb k k').
  - rewrite IH. destruct (String.eqb_spec a k') as [->|]; [|done]. destruct (String.eqb_spec k k') as [->|]; done.
Qed.

Section triples.
  (** [N]: where evaluation may fail to end; [PK]: panics are possible; [DT]: titles
      show no other titles. *)
  Context (E : env) (N : heap → Prop) (PK DT : Prop).

  Definition te {A} (s0 : st) (m : M A) (Q : st → A → Prop) : Prop := ∀ s, good E DT s → pres s0 s →
    good E DT (fst (m s)) ∧ pres s (fst (m s)) ∧
    match snd (m s) with
    | Ok a => Q (fst (m s)) a
    | Err _ => True
    | Panic => PK
    | NoFuel => N (st_heap (fst (m s)))
    end.

  Lemma te_ret {A} s0 (a : A) (Q : st → A → Prop) : (∀ s, pres s0 s → Q s a) → te s0 (mret a) Q.
  Proof. intros HQ s HG Hs. split; [done|]. split; [apply pres_refl|]. by apply HQ. Qed.
  Lemma te_fail {A} s0 (o : outcome error A) Q :
    match o with Ok _ => False | Err _ => True | Panic => PK | NoFuel => ∀ h, N h end → te s0 (mfail o) Q.
  Proof. intros Ho s HG Hs. split; [done|]. split; [apply pres_refl|]. simpl. destruct o; by auto. Qed.
  Lemma te_err {A} s0 e (Q : st → A → Prop) : te s0 (mfail (Err e)) Q.
  Proof. by apply te_fail. Qed.
  Lemma te_bind {A B} s0 (m : M A) (f : A → M B) (P : st → A → Prop) Q :
    te s0 m P → (∀ a s1, pres s0 s1 → good E DT s1 → P s1 a → te s1 (f a) Q) → te s0 (mbind m f) Q.
  Proof.
    intros Hm Hf s HG Hs. unfold mbind. destruct (Hm s HG Hs) as (HG1 & Hp & HP).
    destruct (m s) as [s1 [a|e| |]]; simpl in *; [|done..].
    destruct (Hf a s1 (pres_trans _ _ _ Hs Hp) HG1 HP s1 HG1 (pres_refl _)) as (? & ? & ?).
    split; [done|]. split; [by eapply pres_trans|done].
  Qed.
  Lemma te_heap {B} s0 (f : heap → M B) Q :
    (∀ s, pres s0 s → good E DT s → te s (f (st_heap s)) Q) → te s0 (mbind mheap f) Q.
  Proof. intros Hf s HG Hs. unfold mbind, mheap. apply (Hf s Hs HG s HG (pres_refl _)). Qed.
  Lemma te_weaken {A} s0 s1 (m : M A) (P Q : st → A → Prop) : pres s0 s1 → (∀ s a, pres s1 s → P s a → Q s a) → te s0 m P → te s1 m Q.
  Proof.
    intros Hp HPQ Hm s HG Hs. destruct (Hm s HG (pres_trans _ _ _ Hp Hs)) as (? & ? & Hr). split; [done|]. split; [done|].
    destruct (snd (m s)); try done. apply HPQ; [by eapply pres_trans|done].
  Qed.
  Lemma te_upd s0 i f : (∀ x, s_path (f x) = s_path x ∧ s_parent (f x) = s_parent x ∧ s_tags (f x) = s_tags x) →
    (∀ s, pres s0 s → sturdy (st_heap s) → sturdy (upd (st_heap s) i f)) → te s0 (mupd i f) (λ _ _, True).
  Proof.
    intros Hf HS s (HG & HC & HW) Hs. split; [split; [by apply HS|split; [done|]]|split; [|done]].
    - intros HD. apply whole_tags_upd; [apply Hf|by apply HW].
    - apply pres_upd. intros x. destruct (Hf x) as (? & ? & _). done.
  Qed.
  Lemma te_catch {A} s0 (m : M A) (Q : st → A → Prop) : te s0 m Q →
    te s0 (mcatch m) (λ s r, match r with inl a => Q s a | inr _ => True end).
  Proof.
    intros Hm s HG Hs. unfold mcatch. destruct (Hm s HG Hs) as (? & ? & ?).
    destruct (m s) as [s1 [a|e| |]]; simpl in *; done.
  Qed.
  Lemma te_map {A B} s0 (f : A → M B) (l : list A) (Q : st → A → B → Prop) :
    (∀ x y s s', pres s s' → Q s x y → Q s' x y) → (∀ x s, x ∈ l → pres s0 s → te s (f x) (λ s, Q s x)) →
    te s0 (mmap f l) (λ s ys, Forall2 (Q s) l ys).
  Proof.
    intros HQ. revert s0. induction l as [|x l IH]; intros s0 Hf; simpl.
    - apply te_ret. constructor.
    - eapply te_bind; [apply Hf; [left|apply pres_refl]|]. intros y s1 Hs1 _ Hy.
      eapply te_bind; [apply IH; intros z s' Hz ?; apply Hf; [by right|by eapply pres_trans]|]. intros ys s2 Hs2 _ Hys.
      apply te_ret. intros s3 Hs3. constructor; [eapply HQ; [|exact Hy]; by eapply pres_trans|].
      eapply Forall2_impl; [exact Hys|]. intros a b. by apply HQ.
  Qed.
  (** [P]: what holds of the accumulator after the elements seen so far. *)
  Lemma te_fold {A B} (f : B → A → M B) (P : st → list A → B → Prop) : (∀ s s' l b, pres s s' → P s l b → P s' l b) →
    ∀ (l pre : list A) acc s0, P s0 pre acc →
    (∀ pre' acc x s, x ∈ l → pres s0 s → P s pre' acc → te s (f acc x) (λ s, P s (pre' ++ [x]))) →
    te s0 (mfold f acc l) (λ s, P s (pre ++ l)).
  Proof.
    intros HP l. induction l as [|x l IH]; intros pre acc s0 Hacc Hf; simpl.
    - apply te_ret. intros s Hs. rewrite app_nil_r. by eapply HP.
    - eapply te_bind; [apply Hf; [left|apply pres_refl|exact Hacc]|]. intros y s1 Hs1 _ Hy.
      replace (pre ++ x :: l) with ((pre ++ [x]) ++ l) by by rewrite <- app_assoc. apply IH; [exact Hy|].
      intros pre' acc' z s' Hz Hs' Ha. apply Hf; [by right|by eapply pres_trans|done].
  Qed.
End triples.

(** ** Results of nodes *)

Definition wopt (o : option content) : Prop := match o with Some c => whole c = true | None => True end.

(** Evaluating [nd] adds to the result [acc] so far, making [o]. *)
Record adds (acc : option content) (nds : list node) (o : option content) : Prop := Adds {
  ad_some : is_Some acc ∨ existsb yields nds = true → is_Some o;
  ad_whole : wopt acc → forallb steady nds = true → wopt o;
  ad_text : ∀ a t, ftext acc = Some a → literal (NSeq nds) = Some t → ftext o = Some (a +:+ t)
}.

Definition qs (s : st) (o : option content) : Prop := qopt (λ n c, sound n c = true) (length (st_heap s)) o.
Lemma qs_mono s s' o : pres s s' → qs s o → qs s' o.
Proof. intros [L _]. destruct o; simpl; [|done]. by apply sound_mono. Qed.

Lemma adds_nil acc : adds acc [] acc.
Proof.
  constructor; simpl; [by intros [?|]|done|]. intros a t Ha [= <-]. by rewrite sapp_nil_r.
Qed.
Lemma literal_app a b t : literal (NSeq (a ++ b)) = Some t → ∃ u v, literal (NSeq a) = Some u ∧ literal (NSeq b) = Some v ∧ t = u +:+ v.
Proof.
  revert t. induction a as [|x a IH]; intros t Ht; [by exists "", t|].
  change (match literal x, literal (NSeq (a ++ b)) with Some a, Some b => Some (a +:+ b) | _, _ => None end = Some t) in Ht.
  change (literal (NSeq (x :: a))) with (match literal x, literal (NSeq a) with Some a, Some b => Some (a +:+ b) | _, _ => None end).
  destruct (literal x) as [u|]; [|done]. destruct (literal (NSeq (a ++ b))) as [v|]; [|done]. injection Ht as <-.
  destruct (IH v eq_refl) as (u' & v' & Hu & Hv & ->). rewrite Hu. exists (u +:+ u'), v'. split; [done|]. split; [done|]. by rewrite sapp_assoc.
Qed.
Lemma adds_app acc a o b o' : adds acc a o → adds o b o' → adds acc (a ++ b) o'.
Proof.
  intros [S1 W1 T1] [S2 W2 T2]. constructor.
  - rewrite existsb_app, orb_true_iff. intuition.
  - rewrite forallb_app, andb_true_iff. intuition.
  - intros x t Hx Ht. apply literal_app in Ht as (u & v & Hu & Hv & ->). rewrite <- sapp_assoc. eauto.
Qed.
Lemma adds_seq acc l o : adds acc l o → adds acc [NSeq l] o.
Proof.
  intros [S W T]. constructor.
  - simpl. by rewrite orb_false_r.
  - simpl. by rewrite andb_true_r.
  - intros a t Ha Ht. apply T; [done|]. change (match literal (NSeq l) with Some a => Some (a +:+ "") | None => None end = Some t) in Ht.
    destruct (literal (NSeq l)); [|done]. injection Ht as <-. by rewrite sapp_nil_r.
Qed.
Lemma append_some acc c : is_Some (go_append acc [Some c]).
Proof. destruct acc as [a|]; [destruct a|]; by eexists. Qed.
Lemma append_whole acc c : wopt acc → whole c = true → wopt (go_append acc [Some c]).
Proof.
  intros Ha Hc. destruct acc as [a|]; simpl; [|done]. destruct a; simpl in *; rewrite ?Hc, ?andb_true_r; try done.
  rewrite forallb_app. simpl. by rewrite Ha, Hc.
Qed.
Lemma append_sound n acc c : qopt (λ n c, sound n c = true) n acc → sound n c = true → qopt (λ n c, sound n c = true) n (go_append acc [Some c]).
Proof. intros Ha Hc. apply (closed_append (λ n c, sound n c = true)); [apply sound_closed|done|done]. Qed.
Lemma qs_append s acc c : qs s acc → sound (length (st_heap s)) c = true → qs s (go_append acc [Some c]).
Proof. apply append_sound. Qed.

(** A content added for a node that is not text. *)
Lemma adds_content acc nd c : literal nd = None → (steady nd = true → whole c = true) → adds acc [nd] (go_append acc [Some c]).
Proof.
  intros Hl Hw. constructor.
  - intros _. apply append_some.
  - simpl. rewrite andb_true_r. intros Ha Hs. apply append_whole; auto.
  - intros a t _ Ht. simpl in Ht. rewrite Hl in Ht. done.
Qed.
Lemma adds_none acc nd : literal nd = None → yields nd = false → adds acc [nd] acc.
Proof.
  intros Hl Hy. constructor.
  - simpl. rewrite Hy. by intros [?|].
  - done.
  - intros a t _ Ht. simpl in Ht. rewrite Hl in Ht. done.
Qed.

(** ** Evaluation *)

(** A converted argument. *)
Definition argrel (s : st) (p : argty * node) (v : argval) : Prop :=
  match fst p, v with
  | TStr, AStr t => ∀ u, literal (snd p) = Some u → t = u
  | TCon, ACon o => qs s o ∧ (yields (snd p) = true → is_Some o) ∧ (steady (snd p) = true → wopt o)
  | TNode, ANode n => n = snd p
  | _, _ => False
  end.
Lemma argrel_mono s s' p v : pres s s' → argrel s p v → argrel s' p v.
Proof.
  intros Hs. unfold argrel. destruct (fst p), v; try done. intros (H1 & H2 & H3). split; [by eapply qs_mono|done].
Qed.

(** Values returned by a method. *)
Definition okret (s : st) (y w : bool) (rets : list retval) : Prop :=
  (∃ c, (rets = [RCon (Some c)] ∨ rets = [RCon (Some c); RErr None]) ∧ sound (length (st_heap s)) c = true ∧ (w = true → whole c = true)) ∨
  (∃ e, rets = [RErr (Some e)] ∨ rets = [RCon None; RErr (Some e)]) ∨
  (y = false ∧ (rets = [] ∨ rets = [RErr None])).

(** Sound contents, whole if [w]. *)
Definition sw (w : bool) (n : nat) (c : content) : Prop := sound n c = true ∧ (w = true → whole c = true).
Lemma sw_mono w n n' c : n ≤ n' → sw w n c → sw w n' c.
Proof. intros L [H1 H2]. split; [by eapply sound_mono|done]. Qed.
Lemma sw_list w : ∀ n l o, Forall (sw w n) l ↔ sw w n (CList l o).
Proof.
  intros n l o. unfold sw. cbn [sound whole]. rewrite !forallb_Forall. split.
  - intros H. split; [eapply Forall_impl; [exact H|]; by intros ? [? ?]|]. intros Hw. eapply Forall_impl; [exact H|]. intros ? [_ HH]. by apply HH.
  - intros [H1 H2]. apply Forall_forall. rewrite Forall_forall in H1. intros x Hx. split; [by apply H1|]. intros Hw.
    specialize (H2 Hw). rewrite Forall_forall in H2. by apply H2.
Qed.
Lemma sw_table w : ∀ n rows, Forall (Forall (sw w n)) rows → sw w n (CTable rows).
Proof.
  intros n rows H. unfold sw. cbn [sound whole]. rewrite !forallb_Forall. split.
  - eapply Forall_impl; [exact H|]. intros r Hr. rewrite forallb_Forall. eapply Forall_impl; [exact Hr|]. by intros ? [? ?].
  - intros Hw. eapply Forall_impl; [exact H|]. intros r Hr. rewrite forallb_Forall. eapply Forall_impl; [exact Hr|]. intros ? [? ?]. auto.
Qed.
Lemma sw_defs w : ∀ n defs, Forall (λ p, sw w n (fst p) ∧ sw w n (snd p)) defs → sw w n (CDefs defs).
Proof.
  intros n defs H. unfold sw. cbn [sound whole]. rewrite !forallb_Forall. split.
  - eapply Forall_impl; [exact H|]. intros [a b] [[? ?] [? ?]]. simpl in *. by rewrite andb_true_iff.
  - intros Hw. eapply Forall_impl; [exact H|]. intros [a b] [[? ?] [? ?]]. simpl in *. rewrite andb_true_iff. auto.
Qed.

Lemma con_args_ok s args argv : Forall2 (argrel s) (map (pair TCon) args) argv → existsb is_zero argv = false →
  ∃ cs, con_args argv = Some cs ∧ length cs = length args ∧ Forall (sw (forallb steady args) (length (st_heap s))) cs.
Proof.
  revert argv. induction args as [|a args IH]; intros argv HF Hz; inversion HF as [|? v ? vs Hv HF']; subst; [by exists []|].
  simpl in Hz. apply orb_false_iff in Hz as [Hz1 Hz]. destruct (IH _ HF' Hz) as (cs & Hc & Hl & HQ).
  unfold argrel in Hv. simpl in Hv. destruct v as [|[c|]|]; try done. destruct Hv as (Hs & _ & Hw).
  exists (c :: cs). simpl. rewrite Hc. split; [done|]. split; [by rewrite Hl|]. constructor.
  - split; [exact Hs|]. intros [Ha ?]%andb_true_iff. exact (Hw Ha).
  - eapply Forall_impl; [exact HQ|]. intros x [? H]. split; [done|]. intros [? ?]%andb_true_iff. auto.
Qed.
Lemma str_args_ok s args argv : Forall2 (argrel s) (map (pair TStr) args) argv → ∃ ss, str_args argv = Some ss ∧ length ss = length args.
Proof.
  revert argv. induction args as [|a args IH]; intros argv HF; inversion HF as [|? v ? vs Hv HF']; subst; [by exists []|].
  destruct (IH _ HF') as (ss & Hc & Hl). unfold argrel in Hv. simpl in Hv. destruct v; try done. eexists. simpl. rewrite Hc. split; [done|]. simpl. by rewrite Hl.
Qed.

Section evaluation.
  Context (E : env) (N : heap → Prop) (PK DT : Prop).
  Context (HE : base_only E).
  Context (HN : ∀ h c, sturdy h → (DT → whole_tags h) → sound (length h) c = true → str E h c = NoFuel → N h).

  Section step.
    (** Nodes of a file the recursion is known to deal with. *)
    Context (B : string → node → Prop) (rec : nat → option content → node → M (option content)).
    Context (Hrec : ∀ self f acc nd s0, in_file (st_heap s0) self f → B f nd → qs s0 acc →
      te E N PK DT s0 (rec self acc nd) (λ s o, qs s o ∧ adds acc [nd] o)).

    Record callable (f fn : string) (args : list node) : Prop := Callable {
      ca_args : ∀ a, a ∈ args → B f a;
      ca_yield : PK ∨ method_name fn = "Section" ∨ ∀ a, a ∈ args → yields a = true;
      ca_title : PK ∨ method_name fn ≠ "Title" ∨ length args ≠ 1 ∨ ∀ a, a ∈ args → steady a = true;
      ca_direct : DT → method_name fn = "Title" → ∀ a rest, args = a :: rest → steady a = true;
      ca_incl : method_name fn = "IncludeSection" → ∀ a, args = [a] → ∀ t, (∀ u, literal a = Some u → t = u) →
        ∀ mt nd, e_fs E (path_join (path_dir f) t) = Some (mt, inl nd) → B (path_join (path_dir f) t) nd
    }.

    Notation TE := (te E N PK DT).

    Lemma in_file_heap s self f : in_file (st_heap s) self f → ∃ x, st_heap s !! self = Some x.
    Proof. intros H. apply in_file_valid in H. by apply lookup_lt_is_Some_2 in H. Qed.

    Lemma te_use s0 self fs : TE s0 (mfold (λ _ f, mupd self (use_plugin f)) tt fs) (λ _ _, True).
    Proof.
      apply (te_fold E N PK DT (λ _ f, mupd self (use_plugin f)) (λ _ _ _, True) (λ _ _ _ _ _ H, H) fs [] tt); [done|]. intros. apply te_upd; [done|].
      intros s' _ HS. by apply (bi_use _ _ _ _ (sturdy_inv E)).
    Qed.
    Lemma te_section s0 i f nd fs : in_file (st_heap s0) i f → B f nd → TE s0 (evaluate_section rec i nd fs) (λ _ _, True).
    Proof.
      intros Hi HB. unfold evaluate_section. eapply te_bind; [apply te_use|]. intros _ s1 Hs1 HG1 _.
      eapply te_bind; [apply (Hrec i f None nd s1); [by apply Hs1|done|done]|]. intros o s2 Hs2 HG2 [Ho _].
      destruct o as [c|]; [|by apply te_ret]. apply te_upd; [done|]. intros s Hs HS.
      apply (bi_body _ _ _ _ (sturdy_inv E)); [done|]. by apply (qs_mono s2 s (Some c)).
    Qed.
    Lemma te_alloc s0 parent path : match parent with Some p => p < length (st_heap s0) | None => True end →
      TE s0 (alloc parent path) (λ s i, st_heap s !! i = Some (new_section parent path)).
    Proof.
      intros Hp s (HS & HC & HW) Hs. simpl. split; [split; [|split; [done|]]|split; [apply pres_alloc|]].
      - apply (bi_alloc _ _ _ _ (sturdy_inv E)); [done|]. destruct parent; [|done]. destruct Hs. lia.
      - intros HD j x t c [Hx|[_ Hx]]%lookup_app_Some; [by eapply (HW HD)|].
        destruct (j - length (st_heap s)); simpl in Hx; [|done]. injection Hx as <-. by intros ?%elem_of_nil.
      - by apply list_lookup_middle.
    Qed.
    Lemma te_node s0 parent f nd fs : in_file (st_heap s0) parent f → B f nd →
      TE s0 (evaluate_node rec parent nd fs) (λ s i, i < length (st_heap s)).
    Proof.
      intros Hp HB. unfold evaluate_node. eapply te_bind; [apply te_alloc; by eapply in_file_valid|]. intros i s1 Hs1 HG1 Hi.
      eapply te_bind.
      { apply (te_section s1 i f); [|done]. eapply in_parent; [exact Hi|done|done|by apply Hs1]. }
      intros _ s2 Hs2 _ _. apply te_ret. intros s3 Hs3. apply lookup_lt_Some in Hi. destruct Hs2, Hs3. lia.
    Qed.
    Lemma te_file s0 parent path fs : path ≠ "" → match parent with Some p => p < length (st_heap s0) | None => True end →
      (∀ mt nd, e_fs E path = Some (mt, inl nd) → B path nd) →
      TE s0 (evaluate_file E rec parent path fs) (λ s i, i < length (st_heap s)).
    Proof.
      intros Hne Hp HB. unfold evaluate_file. destruct (e_fs E path) as [[mt parsed]|] eqn:Hfs; [|apply te_err].
      assert (∀ nd, parsed = inl nd → B path nd) as HB' by (intros nd ->; by eapply HB).
      eapply (te_bind E N PK DT _ _ _ (λ _ nd, parsed = inl nd)).
      { intros s HG Hs. unfold parse_step. simpl. split; [done|]. split; [apply pres_refl|].
        destruct (assoc_get path (st_cache s)) as [[nd t]|] eqn:Hc; [|by destruct parsed].
        destruct (Nat.ltb t mt); [by destruct parsed|]. destruct HG as (_ & HC & _). destruct (HC _ _ _ Hc) as [mt' Hmt]. congruence. }
      intros nd s1 Hs1 HG1 Hnd.
      eapply te_bind.
      { apply te_alloc. destruct parent; [|done]. destruct Hs1. lia. }
      intros i s2 Hs2 HG2 Hi. eapply te_bind.
      { apply (te_section s2 i path); [|by apply HB']. apply (in_own (st_heap s2) i _ Hi). done. }
      intros _ s3 Hs3 _ _ s (HS & HC & HW) Hs. simpl. split; [split; [done|split; [|done]]|split; [split; [done|auto]|]].
      - intros p nd' t. simpl. rewrite assoc_set_get. destruct (String.eqb_spec path p) as [<-|]; [|apply HC].
        intros [= <- <-]. exists mt. by rewrite Hfs, Hnd.
      - apply lookup_lt_Some in Hi. destruct Hs3, Hs. lia.
    Qed.

    Lemma te_attach s0 self f attach setloc r : in_file (st_heap s0) self f → match r with inl i => i < length (st_heap s0) | inr _ => True end →
      TE s0 (attach_result self attach setloc r) (λ _ _, True).
    Proof.
      intros Hs Hr. destruct r as [i|e]; simpl; [|by apply te_ret].
      eapply (te_bind E N PK DT _ _ _ (λ _ _, True)).
      - destruct setloc; [|by apply te_ret]. apply te_heap. intros s Hp HG.
        destruct (in_file_heap s self f) as [x Hx]; [by apply Hp|]. rewrite Hx. apply te_upd; [done|]. intros s' _ HS.
        by apply (bi_loc _ _ _ _ (sturdy_inv E)).
      - intros _ s1 Hs1 _ _. destruct attach; [|by apply te_ret]. apply te_upd; [done|]. intros s' Hs' HS.
        assert (length (st_heap s0) ≤ length (st_heap s')) by (destruct Hs1, Hs'; lia).
        apply in_file_valid in Hs. apply (bi_attach _ _ _ _ (sturdy_inv E)); [done|lia|lia].
    Qed.

    Lemma te_getself {A} s0 self f (k : section → prog A) P : in_file (st_heap s0) self f →
      (∀ x s, pres s0 s → TE s (run_prog E rec self (k x)) P) → TE s0 (run_prog E rec self (getself self k)) P.
    Proof.
      intros Hf Hk. simpl. apply te_heap. intros s Hs HG. destruct (in_file_heap s self f) as [x Hx]; [by apply Hs|]. rewrite Hx. by apply Hk.
    Qed.
    Lemma te_getpath {A} s0 self f (k : string → prog A) P : in_file (st_heap s0) self f →
      (∀ s, pres s0 s → TE s (run_prog E rec self (k f)) P) → TE s0 (run_prog E rec self (getpath self k)) P.
    Proof.
      intros Hf Hk. simpl. apply te_heap. intros s Hs [HS HC]. rewrite (in_file_path _ self f); [by apply Hk|done|by apply Hs].
    Qed.

    (** Assignments of the base plugin. *)
    Definition op_ok (s : st) (o : op) : Prop :=
      match o with
      | OSetTitle title _ tags => sound (length (st_heap s)) title = true ∧ (PK ∨ tags ≠ [] ∨ whole title = true) ∧ (DT → whole title = true)
      | OSetTag _ _ _ _ | OSetTagAnchored _ _ _ _ _ => False
      | OSetPartial _ (Some c) => sound (length (st_heap s)) c = true
      | OSetPartial _ None => False
      | _ => True
      end.
    Lemma te_op s0 self f o : in_file (st_heap s0) self f → op_ok s0 o → TE s0 (run_op E self o) (λ _ _, True).
    Proof.
      intros Hs Ho.
      destruct o as [title l tags|name title l anchor|name title l c anchor|name [c|]|name| | | | |fa]; simpl in *;
        try done;
        try (apply te_upd; [done|]; intros s' Hs' HS;
             (by apply (bi_style _ _ _ _ (sturdy_inv E))) || (by apply (bi_flags _ _ _ _ (sturdy_inv E))) || by apply (bi_use _ _ _ _ (sturdy_inv E))).
      - destruct Ho as (Hso & Hw & Hd). intros s (HS & HC & HW) Hs0. unfold mbind, mheap, mlift.
        assert (sound (length (st_heap s)) title = true) as Hso1 by (eapply sound_mono; [apply Hs0|done]).
        assert (match title_tags (e_similar E) (e_broken E) (st_heap s) (e_jumps E) title tags with
                | Ok _ | Err _ => True | Panic => PK | NoFuel => N (st_heap s) end) as Ht.
        { unfold title_tags. destruct tags as [|t tags]; [|done]. unfold default_tag.
          destruct (strip_aux title) as [c|] eqn:Hst; simpl.
          - assert (sound (length (st_heap s)) c = true) as Hc by by eapply strip_sound.
            destruct (cstring (e_similar E) (e_broken E) (st_heap s) (e_jumps E) c) eqn:Hcs; simpl; try done.
            + by apply cstring_no_panic in Hcs.
            + by eapply HN.
          - destruct Hw as [Hw|[Hw|Hw]]; [done|done|]. apply whole_strips in Hw. rewrite Hst in Hw. by destruct Hw. }
        destruct (title_tags _ _ _ _ _ _) as [tags'|e| |]; simpl; try done.
        split; [split; [|split; [done|]]|split; [|done]].
        + apply (bi_title _ _ _ _ (sturdy_inv E)); [done| |done]. apply in_file_valid in Hs. destruct Hs0. lia.
        + intros HD j x t c. simpl. rewrite upd_lookup. destruct (decide (self = j)) as [->|]; [|by eapply HW].
          destruct (st_heap s !! j) as [y|] eqn:Hy; simpl; [|done]. intros [= <-].
          destruct (set_title_tags_eq j title l tags' y) as [-> _]. intros (n & -> & _)%elem_of_list_fmap. simpl.
          intros [= <-]. by apply Hd.
        + apply pres_upd. intros x. destruct (set_title_rest self title l tags' x) as (? & _ & ? & _). done.
      - apply te_upd; [done|]. intros s' Hs' HS. apply (bi_partial _ _ _ _ (sturdy_inv E)); [done|]. by eapply sound_mono; [apply Hs'|].
    Qed.

    Lemma te_prog_op {A} s0 self f o (k : prog A) P : in_file (st_heap s0) self f → op_ok s0 o →
      (∀ s, pres s0 s → TE s (run_prog E rec self k) P) → TE s0 (run_prog E rec self (POp o k)) P.
    Proof. intros Hf Ho Hk. simpl. eapply te_bind; [by eapply te_op|]. intros _ s1 Hs1 _ _. by apply Hk. Qed.

    Lemma te_convert s0 self f p : in_file (st_heap s0) self f → (fst p ≠ TNode → B f (snd p)) → (PK ∨ fst p = TNode ∨ yields (snd p) = true) →
      TE s0 (convert E rec self (fst p) (snd p)) (λ s, argrel s p).
    Proof.
      intros Hf HB HY. destruct p as [ty nd]. unfold argrel. simpl in *. destruct ty; simpl.
      - eapply te_bind; [apply (Hrec self f None nd s0); [done|by apply HB|done]|]. intros o s1 Hs1 HG1 [Ho [A1 A2 A3]].
        destruct o as [c|]; [|apply te_fail].
        + intros s (HS & HC & HW) Hs. unfold mbind, mheap, mlift.
          assert (sound (length (st_heap s)) c = true) as Hc by by apply (qs_mono s1 s (Some c)).
          destruct (str E (st_heap s) c) as [t|e| |] eqn:Hstr; simpl; (split; [done|]); (split; [apply pres_refl|]); try done.
          * intros u Hu. specialize (A3 "" (u +:+ "") eq_refl). simpl in A3. rewrite Hu in A3. specialize (A3 eq_refl).
            rewrite sapp_nil_r in A3. apply (ctext_string (e_similar E) (e_broken E) (st_heap s) (e_jumps E)) in A3.
            unfold str in Hstr. congruence.
          * by apply cstring_no_panic in Hstr.
          * by eapply HN.
        + destruct HY as [?|[?|Hy]]; [done|done|]. destruct A1; [|done]. right. simpl. by rewrite Hy.
      - eapply te_bind; [apply (Hrec self f None nd s0); [done|by apply HB|done]|]. intros o s1 Hs1 HG1 [Ho [A1 A2 A3]].
        apply te_ret. intros s Hs. split; [by eapply qs_mono|]. split.
        + intros Hy. apply A1. right. simpl. by rewrite Hy.
        + intros Hst. apply A2; [done|]. simpl. by rewrite Hst.
      - by apply te_ret.
      - apply te_err.
    Qed.

    Lemma steady_args fn args l : steady (NInvoke fn args l) = true → forallb steady args = true.
    Proof. simpl. rewrite !andb_true_iff. tauto. Qed.

    Lemma te_rets s0 y w rets : okret s0 y w rets → TE s0 (mret rets) (λ s, okret s y w).
    Proof.
      intros H. apply te_ret. intros s Hs. destruct H as [(c & H1 & H2 & H3)|H]; [|by right].
      left. exists c. split; [done|]. split; [|done]. by eapply sound_mono; [apply Hs|].
    Qed.
    Lemma okret_con s y w c : sw w (length (st_heap s)) c → okret s y w [RCon (Some c)].
    Proof. intros [H1 H2]. left. exists c. auto. Qed.

    Lemma te_res s0 self w (r : nat + Section.error) : TE s0 (run_prog E rec self (res_ret r)) (λ s, okret s false w).
    Proof. destruct r as [i|e]; apply te_rets; right; [by right; auto|left; eauto]. Qed.
    Lemma te_prog_node s0 self f w nd fs attach setloc : in_file (st_heap s0) self f → B f nd →
      TE s0 (run_prog E rec self (PEvalNode nd fs attach setloc res_ret)) (λ s, okret s false w).
    Proof.
      intros Hs HB. simpl. eapply te_bind; [by eapply te_catch, te_node|]. intros r s1 Hs1 _ Hr.
      eapply te_bind; [apply te_attach with (f := f); [by apply Hs1|done]|]. intros _ s2 Hs2 _ _. apply te_res.
    Qed.
    Lemma te_prog_file s0 self f w path fs attach : in_file (st_heap s0) self f → path ≠ "" →
      (∀ mt nd, e_fs E path = Some (mt, inl nd) → B path nd) →
      TE s0 (run_prog E rec self (PEvalFile path fs attach res_ret)) (λ s, okret s false w).
    Proof.
      intros Hs Hne HB. simpl. eapply te_bind; [apply te_catch, te_file; [done|by eapply in_file_valid|done]|]. intros r s1 Hs1 _ Hr.
      eapply te_bind; [apply te_attach with (f := f); [by apply Hs1|done]|]. intros _ s2 Hs2 _ _. apply te_res.
    Qed.

    Ltac args := repeat match goal with
      | H : Forall2 _ (_ :: _) _ |- _ => inversion H; clear H; subst
      | H : Forall2 _ [] _ |- _ => inversion H; clear H; subst
      | H : argrel _ (TStr, _) ?v |- _ => destruct v as [?t| |]; [|done|done]; unfold argrel in H; simpl in H
      | H : argrel _ (TCon, _) ?v |- _ => destruct v as [|[?c|]|]; [done| |done|done]; destruct H as (?Hq & ?Hy & ?Hw); cbn [fst snd] in Hq, Hy, Hw
      | H : argrel _ (TNode, _) ?v |- _ => destruct v as [| |?n]; [done|done|]; unfold argrel in H; simpl in H; subst n
      end.

    Lemma te_method s0 self f fn args l m argv : base_method (method_name fn) = Some m → in_file (st_heap s0) self f →
      (∀ a, a ∈ args → B f a) →
      (PK ∨ method_name fn ≠ "Title" ∨ length args ≠ 1 ∨ ∀ a, a ∈ args → steady a = true) →
      (DT → method_name fn = "Title" → ∀ a rest, args = a :: rest → steady a = true) →
      (method_name fn = "IncludeSection" → ∀ a, args = [a] → ∀ t, (∀ u, literal a = Some u → t = u) →
        ∀ mt nd, e_fs E (path_join (path_dir f) t) = Some (mt, inl nd) → B (path_join (path_dir f) t) nd) →
      arity_ok m (length args) = true → Forall2 (argrel s0) (arg_types m args) argv → existsb is_zero argv = false →
      TE s0 (run_prog E rec self (m_body m self argv)) (λ s, okret s (yields (NInvoke fn args l)) (steady (NInvoke fn args l))).
    Proof.
      intros Hm Hs HCa HCt HCd HCi Ha HF Hz. unfold base_method in Hm. apply assoc_get_In in Hm. set (w := steady (NInvoke fn args l)).
      assert (w = true → forallb steady args = true) as Hwa by apply steady_args.
      cbn [yields].
      assert (∀ style y, arity_ok (styled_method style) (length args) = true → Forall2 (argrel s0) (arg_types (styled_method style) args) argv →
        TE s0 (run_prog E rec self (m_body (styled_method style) self argv)) (λ s, okret s y w)) as Hst.
      { clear -Hz Hwa. intros style y Ha HF. destruct args as [|a [|]]; try done. cbn in HF. args; simpl in *; try done.
        apply te_rets, okret_con. split; simpl; [by rewrite Hq|]. intros Hw'. rewrite andb_true_r. apply Hw. specialize (Hwa Hw'). by rewrite andb_true_r in Hwa. }
      assert (∀ o y, Forall2 (argrel s0) (arg_types (list_method o) args) argv →
        TE s0 (run_prog E rec self (m_body (list_method o) self argv)) (λ s, okret s y w)) as Hli.
      { clear -Hz Hwa. intros o y HF. cbn in HF. simpl.
        destruct (con_args_ok _ _ _ HF Hz) as (cs & -> & _ & Hcs). apply te_rets, okret_con. apply sw_list.
        eapply Forall_impl; [exact Hcs|]. intros c [H1 H2]. split; [done|]. auto. }
      unfold base_table in Hm.
      repeat (apply elem_of_cons in Hm as [Hm|Hm]; [injection Hm as Hname ->|]); try (by apply Hst); try (by apply Hli); try by inversion Hm.
      all: rewrite Hname; try (replace (negb (bool_decide (_ ∈ silent))) with false by by vm_compute).
      - (* UsePlugin *)
        destruct args as [|a [|]]; try done. cbn in HF. args. simpl. destruct (e_registry E t) as [fa|].
        + apply te_prog_op with (f := f); [done|done|]. intros s Hs'. apply te_rets. right. right. auto.
        + apply te_rets. right. left. eauto.
      - (* Styled *)
        destruct args as [|a [|]]; try done. cbn in HF. args. apply te_prog_op with (f := f); [done|done|]. intros s Hs'.
        apply te_rets. right. right. auto.
      - (* Title *)
        destruct args as [|a args]; try done. cbn in HF. rewrite drop_0 in HF. args.
        match goal with H : Forall2 _ _ ?tl |- _ => destruct (str_args_ok _ _ _ H) as (ss & Hss & Hlen); rename tl into vs end.
        simpl. rewrite Hss. apply te_getself with (f := f); [done|]. intros x s1 Hs1. destruct (is_empty (s_title x)).
        + apply te_prog_op with (f := f); [by apply Hs1| |].
          * simpl. split; [by eapply sound_mono; [apply Hs1|]|]. split; [|intros HD; by eapply Hw, HCd]. destruct HCt as [?|[?|[Hl|Hst']]]; [by left|done| |].
            -- right. left. intros ->. simpl in *. destruct args; done.
            -- right. right. apply Hw, Hst'. left.
          * intros s Hs'. apply te_rets. right. right. auto.
        + apply te_getpath with (f := f); [by apply Hs1|]. intros s Hs'. apply te_rets. right. left. eauto.
      - (* Aux *)
        destruct args as [|a [|]]; try done. cbn in HF. args. apply te_rets, okret_con. split; [done|].
        intros Hw'. apply Hw. specialize (Hwa Hw'). simpl in Hwa. by rewrite andb_true_r in Hwa.
      - (* Section *)
        destruct args as [|a [|]]; try done. cbn in HF. args. apply te_getself with (f := f); [done|]. intros x s1 Hs1.
        apply (te_prog_node s1 self f w a (s_factories x) true true); [by apply Hs1|]. apply HCa. left.
      - (* IncludeSection *)
        destruct args as [|a [|]]; try done. cbn in HF. args. apply te_getpath with (f := f); [done|]. intros s1 Hs1.
        apply (te_prog_file s1 self f w _ [FBase] true); [by apply Hs1|apply path_join_nonempty|].
        by eapply HCi.
      - (* SinglePage *)
        apply te_prog_op with (f := f); [done|done|]. intros s Hs'. apply te_rets. right. right. auto.
      - (* SplitSections *)
        apply te_prog_op with (f := f); [done|done|]. intros s1 Hs1. simpl. apply te_heap. intros s2 Hs2 [HS2 _].
        destruct (sturdy_split_prevented (st_heap s2) self) as [b Hb]; [done| |].
        { apply in_file_valid in Hs. destruct Hs1, Hs2. lia. }
        rewrite Hb. destruct b; [apply te_rets; right; right; auto|].
        apply te_prog_op with (f := f); [by apply Hs2, Hs1|done|]. intros s Hs'. apply te_rets. right. right. auto.
      - (* OmitChildrenFromTableOfContents *)
        apply te_prog_op with (f := f); [done|done|]. intros s Hs'. apply te_rets. right. right. auto.
      - (* TableOfContents *)
        apply te_rets, okret_con. split; [|done]. simpl. apply Nat.ltb_lt. by eapply in_file_valid.
      - (* Link *)
        destruct args as [|a [|b [|]]]; try done. cbn in HF. args. apply te_rets, okret_con. split; [done|].
        intros Hw'. apply Hw. specialize (Hwa Hw'). simpl in Hwa. by apply andb_true_iff in Hwa as [? _].
      - (* Reference *)
        destruct args as [|a args]; try done. cbn in HF. rewrite drop_0 in HF. args.
        match goal with H : Forall2 _ _ _ |- _ => destruct (con_args_ok _ _ _ H Hz) as (cs & Hcs & Hlen & HF') end.
        simpl. rewrite Hcs. apply te_getself with (f := f); [done|]. intros x s1 Hs1. apply te_rets, okret_con.
        assert (self < length (st_heap s1)) as Hself. { apply in_file_valid in Hs. destruct Hs1. lia. }
        apply Nat.ltb_lt in Hself. destruct cs as [|c cs]; (split; cbn [sound whole head]; [rewrite Hself; simpl|]).
        + done.
        + intros Hw'. subst w. simpl in Hw'. rewrite Hname in Hw'. destruct args; [|done]. simpl in Hw'. by rewrite !andb_false_r in Hw'.
        + inversion HF' as [|? ? [Hc _] _]; subst. by eapply sound_mono; [apply Hs1|].
        + intros Hw'. inversion HF' as [|? ? [_ Hc] _]; subst. apply Hc. specialize (Hwa Hw'). simpl in Hwa. by apply andb_true_iff in Hwa as [_ ?].
      - (* Target *)
        destruct args as [|a args]; try done. cbn in HF. rewrite drop_0 in HF. args.
        match goal with H : Forall2 _ _ _ |- _ => destruct (con_args_ok _ _ _ H Hz) as (cs & Hcs & Hlen & HF') end.
        simpl. rewrite Hcs. apply te_getself with (f := f); [done|]. intros x s1 Hs1.
        assert (Forall (sw (forallb steady args) (length (st_heap s1))) cs) as HF1.
        { eapply Forall_impl; [exact HF'|]. intros c. apply sw_mono, Hs1. }
        assert (length cs ≠ 2 → w = false) as Hw2.
        { intros Hl. subst w. simpl. rewrite Hname. simpl. destruct args as [|? [|? [|? ?]]]; simpl in *; rewrite ?andb_false_r; done || lia. }
        destruct cs as [|c1 [|c2 [|? ?]]]; apply te_rets, okret_con; (split; [cbn [sound]|]); try (rewrite Hw2 by done; done); try done.
        + inversion HF1 as [|? ? [Hc _] _]; subst. by rewrite Hc.
        + inversion HF1 as [|? ? [Hc1 _] HF2]; subst. inversion HF2 as [|? ? [Hc2 _] _]; subst. by rewrite Hc1, Hc2.
        + intros Hw'. specialize (Hwa Hw'). simpl in Hwa. apply andb_true_iff in Hwa as [_ Hwa].
          inversion HF1 as [|? ? [_ Hc1] HF2]; subst. inversion HF2 as [|? ? [_ Hc2] _]; subst. simpl. by rewrite Hc1, Hc2.
      - (* Image *)
        destruct args as [|a args]; try done. cbn in HF. rewrite drop_0 in HF.
        destruct (str_args_ok s0 (a :: args) argv HF) as (ss & Hss & Hlen). simpl. rewrite Hss. destruct ss; [done|].
        apply te_rets, okret_con. done.
      - (* SetPartial *)
        destruct args as [|a [|b [|]]]; try done. cbn in HF. args. apply te_prog_op with (f := f); [done|done|].
        intros s Hs'. apply te_rets. right. right. auto.
      - (* Table *)
        cbn in HF. rewrite drop_0 in HF. destruct (con_args_ok _ _ _ HF Hz) as (cs & Hcs & _ & HF'). simpl. rewrite Hcs.
        pose proof (table_rows_inv _ _ cs [] (sw_list _) (sw_table _) HF' (Forall_nil_2 _)) as Ht.
        destruct (table_rows cs []) as [c|e]; apply te_rets; [left; exists c|right; left; eauto].
        destruct Ht. split; [auto|]. auto.
      - (* Definitions *)
        cbn in HF. rewrite drop_0 in HF. destruct (con_args_ok _ _ _ HF Hz) as (cs & Hcs & _ & HF'). simpl. rewrite Hcs.
        pose proof (def_items_inv _ _ cs [] (sw_list _) (sw_defs _) HF' (Forall_nil_2 _)) as Ht.
        destruct (def_items cs []) as [c|e]; apply te_rets; [left; exists c|right; left; eauto].
        destruct Ht. split; [auto|]. auto.
      - (* Definition *)
        destruct args as [|a [|b [|]]]; try done. 
        destruct (con_args_ok s0 [a; b] argv HF Hz) as (cs & Hcs & _ & HF'). simpl. rewrite Hcs. apply te_rets, okret_con. apply sw_list.
        eapply Forall_impl; [exact HF'|]. intros c [H1 H2]. split; [done|]. auto.
    Qed.

    Lemma te_results s0 fn args l acc el rets : qs s0 acc → okret s0 (yields (NInvoke fn args l)) (steady (NInvoke fn args l)) rets →
      TE s0 (handle_results fn el acc rets) (λ s o, qs s o ∧ adds acc [NInvoke fn args l] o).
    Proof.
      intros Hq [(c & Hr & Hc & Hw)|[(e & Hr)|[Hy Hr]]].
      - destruct Hr as [-> | ->]; simpl; apply te_ret; intros s Hs.
        all: split; [apply qs_append; [by eapply qs_mono|by eapply sound_mono; [apply Hs|]]|by apply adds_content].
      - destruct Hr as [-> | ->]; simpl; apply te_err.
      - destruct Hr as [-> | ->]; simpl; apply te_ret; intros s Hs; (split; [by eapply qs_mono|by apply adds_none]).
    Qed.

    Lemma arg_types_in m args p : p ∈ arg_types m args → snd p ∈ args.
    Proof.
      unfold arg_types. rewrite elem_of_app. intros [H|H].
      - destruct p as [t a]. by apply elem_of_zip_r in H.
      - destruct (m_variadic m) as [t|]; [|by inversion H]. apply elem_of_list_fmap in H as (a & -> & Ha). simpl.
        by eapply elem_of_list_lookup in Ha as (i & Hi); rewrite lookup_drop in Hi; apply elem_of_list_lookup_2 in Hi.
    Qed.

    Lemma te_invoke s0 self f acc fn args l : in_file (st_heap s0) self f → qs s0 acc → callable f fn args →
      TE s0 (visit_invoke E rec self acc fn args l) (λ s o, qs s o ∧ adds acc [NInvoke fn args l] o).
    Proof.
      intros Hs Hq HC. unfold visit_invoke. eapply te_bind.
      { apply te_upd; [done|]. intros s _ HS. by apply (bi_invloc _ _ _ _ (sturdy_inv E)). }
      intros _ s1 Hs1 HG1 _. apply te_heap. intros s2 Hs2 [HS2 _].
      assert (in_file (st_heap s2) self f) as Hf2 by by apply Hs2, Hs1.
      destruct (in_file_heap s2 self f Hf2) as [x Hx]. rewrite Hx. rewrite (in_file_path _ self f) by done. simpl.
      change (TE s2 (mbind (mret f) ?k)) with (TE s2 (mbind (mret f) k)).
      eapply (te_bind E N PK DT _ _ _ (λ _ g, g = f)); [by apply te_ret|]. intros ? s3 Hs3 _ ->.
      destruct (find_method E (s_factories x) (method_name fn)) as [m|] eqn:Hm; [|apply te_err].
      apply find_method_some in Hm as (fa & _ & Hm). destruct HE as [Hb Ho]. destruct fa as [|i]; [|by rewrite Ho in Hm].
      rewrite Hb in Hm. destruct (arity_ok m (length args)) eqn:Ha; [|apply te_err].
      assert (in_file (st_heap s3) self f) as Hf3 by by apply Hs3.
      assert (∀ p, p ∈ arg_types m args → PK ∨ fst p = TNode ∨ yields (snd p) = true) as HY.
      { intros p Hp. destruct (ca_yield _ _ _ HC) as [?|[Hsec|Hy]]; [by left| |right; right; by eapply Hy, arg_types_in].
        right. left. rewrite Hsec in Hm. injection Hm as <-. unfold arg_types in Hp. simpl in Hp. rewrite app_nil_r in Hp.
        destruct args as [|a args]; [by inversion Hp|]. simpl in Hp. apply elem_of_list_singleton in Hp as ->. done. }
      eapply te_bind.
      { apply (te_map E N PK DT s3 (λ p, convert E rec self (fst p) (snd p)) (arg_types m args) argrel).
        - intros p v sa sb. apply argrel_mono.
        - intros p s Hp Hs'. apply te_convert with (f := f); [by apply Hs'| |].
          + intros _. apply (ca_args _ _ _ HC). by eapply arg_types_in.
          + by apply HY. }
      intros argv s4 Hs4 _ HF. destruct (existsb is_zero argv) eqn:Hz.
      { apply te_fail. clear -HF Hz HY. induction HF as [|p v ps vs Hv _ IH]; [done|]. simpl in Hz. apply orb_true_iff in Hz as [Hz|Hz].
        - destruct v as [|[|]|]; try done. destruct (HY p) as [?|[Ht|Hy]]; [left|done| |].
          + unfold argrel in Hv. by rewrite Ht in Hv.
          + unfold argrel in Hv. destruct (fst p); try done. destruct Hv as (_ & Hv & _). destruct (Hv Hy). done.
        - apply IH; [intros q Hq; apply HY; by right|done]. }
      eapply te_bind; [apply te_method with (f := f); [exact Hm|by apply Hs4|apply HC..|done|done|done]|].
      intros rets s5 Hs5 _ Hr. apply te_results; [|exact Hr]. eapply qs_mono; [|exact Hq].
      repeat (eapply pres_trans; [eassumption|]). apply pres_refl.
    Qed.

    (** What has to be known about the parts of a node. *)
    Definition parts_ok (f : string) (nd : node) : Prop :=
      match nd with
      | NString _ => True
      | NSeq l => ∀ a, a ∈ l → B f a
      | NPara ls | NPre ls => ∀ l a, l ∈ ls → a ∈ l → B f a
      | NInvoke fn args _ => callable f fn args
      end.

    Lemma te_seq s0 self f acc l : in_file (st_heap s0) self f → qs s0 acc → (∀ a, a ∈ l → B f a) →
      TE s0 (visit_seq rec self acc l) (λ s o, qs s o ∧ adds acc l o).
    Proof.
      intros Hs Hq HB. unfold visit_seq.
      apply (te_fold E N PK DT (rec self) (λ s pre o, qs s o ∧ adds acc pre o)) with (pre := []).
      - intros s s' pre o Hp [H1 H2]. split; [by eapply qs_mono|done].
      - split; [done|]. apply adds_nil.
      - intros pre o a s Ha Hp [H1 H2]. eapply te_weaken; [apply pres_refl| |apply (Hrec self f o a s); [by apply Hp|by apply HB|done]].
        intros s' o' Hp' [H3 H4]. split; [done|]. by eapply adds_app.
    Qed.

    Definition line_ok (s : st) (l : list node) (o : option content) : Prop := qs s o ∧ adds None l o.
    Lemma te_lines s0 self f ls : in_file (st_heap s0) self f → (∀ l a, l ∈ ls → a ∈ l → B f a) →
      TE s0 (visit_lines rec self ls) (λ s cs, ∃ os, Forall2 (line_ok s) ls os ∧ cs = omap id os).
    Proof.
      intros Hs HB. unfold visit_lines. eapply te_bind.
      - apply (te_map E N PK DT s0 (visit_seq rec self None) ls line_ok).
        + intros l o s s' Hp [H1 H2]. split; [by eapply qs_mono|done].
        + intros l s Hl Hp. apply te_seq with (f := f); [by apply Hp|done|]. intros a Ha. by eapply HB.
      - intros os s1 Hs1 _ HF. apply te_ret. intros s Hp. exists os. split; [|done]. eapply Forall2_impl; [exact HF|].
        intros l o [H1 H2]. split; [by eapply qs_mono|done].
    Qed.
    Lemma lines_sound s ls os : Forall2 (line_ok s) ls os → Forall (sw (forallb (forallb steady) ls) (length (st_heap s))) (omap id os).
    Proof.
      induction 1 as [|l o ls os [H1 [_ H2 _]] _ IH]; [constructor|].
      assert (Forall (sw (forallb (forallb steady) (l :: ls)) (length (st_heap s))) (omap id os)) as IH'.
      { eapply Forall_impl; [exact IH|]. intros c [? Hc]. split; [done|]. simpl. intros [? ?]%andb_true_iff. auto. }
      destruct o as [c|]; simpl; [|done]. constructor; [|done]. split; [done|]. intros [Hl _]%andb_true_iff. by apply (H2 I).
    Qed.
    Lemma lines_yield s ls os : Forall2 (line_ok s) ls os → existsb (existsb yields) ls = true → omap id os ≠ [].
    Proof.
      induction 1 as [|l o ls os [_ [H1 _ _]] _ IH]; [done|]. simpl. rewrite orb_true_iff. intros [H|H].
      - destruct H1 as [c ->]; [by right|]. done.
      - destruct o; [done|]. by apply IH.
    Qed.

    Lemma te_eval_F s0 self f acc nd : in_file (st_heap s0) self f → qs s0 acc → parts_ok f nd →
      TE s0 (eval_F E rec self acc nd) (λ s o, qs s o ∧ adds acc [nd] o).
    Proof.
      intros Hs Hq HB. destruct nd as [t|l|ls|ls|fn args l]; cbn [eval_F].
      - apply te_ret. intros s Hp. split; [apply qs_append; [by eapply qs_mono|done]|]. constructor.
        + intros _. apply append_some.
        + intros Ha _. by apply append_whole.
        + intros a u Ha Hu. simpl in Hu. injection Hu as <-. rewrite sapp_nil_r. by apply ftext_append.
      - eapply te_weaken; [apply pres_refl| |by apply te_seq with (f := f)]. intros s o _ [H1 H2]. split; [done|]. by apply adds_seq.
      - eapply te_bind; [by apply te_lines with (f := f)|]. intros cs s1 Hs1 _ (os & HF & Hcs).
        pose proof (lines_sound _ _ _ HF) as HS. rewrite <- Hcs in HS.
        assert (∀ c, sw (forallb (forallb steady) ls) (length (st_heap s1)) c →
          TE s1 (mret (go_append acc [Some c])) (λ s o, qs s o ∧ adds acc [NPara ls] o)) as HT.
        { intros c [Hc1 Hc2]. apply te_ret. intros s Hp. split; [apply qs_append; [|by eapply sound_mono; [apply Hp|]]|].
          - eapply qs_mono; [|exact Hq]. by eapply pres_trans.
          - by apply adds_content. }
        assert (sw (forallb (forallb steady) ls) (length (st_heap s1)) (CPara cs)) as Hpara.
        { split; cbn [sound whole].
          - rewrite forallb_Forall. eapply Forall_impl; [exact HS|]. by intros c [? ?].
          - intros Hw. rewrite forallb_Forall. eapply Forall_impl; [exact HS|]. intros c [_ Hc]. by apply Hc. }
        destruct cs as [|c [|c2 cs]].
        + apply te_ret. intros s Hp. split; [eapply qs_mono; [|exact Hq]; by eapply pres_trans|].
          apply adds_none; [done|]. simpl. destruct (existsb (existsb yields) ls) eqn:Hy; [|done].
          by apply (lines_yield _ _ _ HF) in Hy.
        + destruct (is_flow c); [by apply HT|]. apply HT. by inversion HS.
        + by apply HT.
      - eapply te_bind; [by apply te_lines with (f := f)|]. intros cs s1 Hs1 _ (os & HF & Hcs).
        pose proof (lines_sound _ _ _ HF) as HS. rewrite <- Hcs in HS.
        apply te_ret. intros s Hp. split; [apply qs_append; [eapply qs_mono; [|exact Hq]; by eapply pres_trans|]|].
        + cbn [sound]. rewrite forallb_Forall. eapply Forall_impl; [exact HS|]. intros c [? ?]. by eapply sound_mono; [apply Hp|].
        + apply adds_content; [done|]. simpl. intros Hw. rewrite forallb_Forall. eapply Forall_impl; [exact HS|]. intros c [_ Hc]. by apply Hc.
      - by apply te_invoke with (f := f).
    Qed.
  End step.

  (** [B n]: nodes evaluated with recursion up to [n]. *)
  Lemma te_eval (B : nat → string → node → Prop) :
    (∀ f nd, B 0 f nd → ∀ h, N h) → (∀ n f nd, B (Datatypes.S n) f nd → parts_ok (B n) f nd) →
    ∀ n self f acc nd s0, in_file (st_heap s0) self f → B n f nd → qs s0 acc →
    te E N PK DT s0 (eval E n self acc nd) (λ s o, qs s o ∧ adds acc [nd] o).
  Proof.
    intros H0 HS n. induction n as [|n IH]; intros self f acc nd s0 Hs HB Hq; simpl.
    - apply te_fail. intros h. by eapply H0.
    - apply (te_eval_F (B n)) with (f := f); [done|done|done|by apply HS].
  Qed.

  Lemma te_load (B : nat → string → node → Prop) n path fs :
    (∀ f nd, B 0 f nd → ∀ h, N h) → (∀ n f nd, B (Datatypes.S n) f nd → parts_ok (B n) f nd) →
    path ≠ "" → (∀ mt nd, e_fs E path = Some (mt, inl nd) → B n path nd) →
    te E N PK DT (St [] []) (load_file E n path fs) (λ s i, i < length (st_heap s)).
  Proof.
    intros H0 HS Hne HB. unfold load_file. apply (te_file (B n)); [|done|done|done]. by apply te_eval.
  Qed.
End evaluation.
