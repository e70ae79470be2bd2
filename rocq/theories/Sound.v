(** What the base plugin makes of a document: references are not optional and
    belong to existing sections, targets have titles, sections are not used as
    content. With such contents String() has no nil pointer to follow. *)
From Coq Require Import Ascii String Lia.
From stdpp Require Import base tactics relations strings list.
From Verif Require Import GoBase Ast Content Section ContentProofs TreeSpec TreeProofs TagProofs QueryProofs
  Evaluate EvalProofs EvalFrame EvalInv BaseInv Collect CollectSpec CollectProofs BaseFacts LoadProofs HtmlLoad HtmlProofs.
Local Open Scope list_scope.

(** With sections numbered below [n]. *)
Fixpoint sound (n : nat) (c : content) : bool :=
  match c with
  | CString _ | CImage _ _ | CLazy _ _ => true
  | CSeq l | CPara l | CPre l | CList l _ => forallb (sound n) l
  | CRef sec _ rc opt _ =>
    Nat.ltb sec n && negb opt && match rc with Some c => sound n c | None => true end
  | CLink c _ | CAux c => sound n c
  | CSection _ => false
  | CToc i => Nat.ltb i n
  | CStyled _ _ c ps => sound n c && match ps with [] => true | _ => false end
  | CTarget _ _ ti x =>
    match ti with Some c => sound n c | None => false end && match x with Some c => sound n c | None => true end
  | CTable rows => forallb (forallb (sound n)) rows
  | CDefs defs => forallb (λ p, match p with (s, d) => sound n s && sound n d end) defs
  end.

Lemma sound_mono n n' c : n ≤ n' → sound n c = true → sound n' c = true.
Proof.
  intros L.
  induction c as [s|l IH|l IH|l IH|sec t rc o l IH|c t IH|s|s|st b c ps IH IHps|t l ti x IHt IHx|p d|l o IH|rows IH|defs IH|b t|c IH]
    using content_ind'; cbn [sound]; auto; try by apply forallb_mono.
  - rewrite !andb_true_iff, !Nat.ltb_lt. intros [[? ?] ?]. repeat split; [lia|done|]. destruct rc; auto.
  - rewrite !Nat.ltb_lt. lia.
  - rewrite !andb_true_iff. intros [? ?]. auto.
  - rewrite !andb_true_iff. intros [? ?]. split; [destruct ti|destruct x]; auto.
  - apply forallb_mono. eapply Forall_impl; [exact IH|]. intros r. by apply forallb_mono.
  - apply forallb_mono. eapply Forall_impl; [exact IH|]. intros [a b] [Ha Hb]. simpl in *. rewrite !andb_true_iff. naive_solver.
Qed.

Lemma sound_closed : closed (λ n c, sound n c = true).
Proof.
  constructor; try done.
  - intros n n' c Hn Hc. by eapply sound_mono.
  - intros n l c Hl Hc. change (forallb (sound n) (l ++ [c]) = true). change (forallb (sound n) l = true) in Hl.
    rewrite forallb_app, Hl. simpl. by rewrite Hc.
  - intros n a b Ha Hb. simpl. by rewrite Ha, Hb.
  - intros n l Hl. by apply forallb_Forall.
  - intros n l Hl. by apply forallb_Forall.
Qed.

Definition sound_tag (n i : nat) (t : tag) : Prop :=
  t_section t = Some i ∧ ∃ c, t_title t = Some c ∧ sound n c = true.
Definition sound_section (n i : nat) (x : section) : Prop :=
  sound n (s_title x) = true ∧ sound n (s_body x) = true ∧
  Forall (λ p : string * option content, ∃ c, snd p = Some c ∧ sound n c = true) (s_partials x) ∧
  Forall (sound_tag n i) (s_tags x) ∧
  (∀ p, s_parent x = Some p → p < i).
Definition sturdy (h : heap) : Prop := ∀ i x, h !! i = Some x → sound_section (length h) i x.

Lemma sound_tag_mono n n' i t : n ≤ n' → sound_tag n i t → sound_tag n' i t.
Proof. intros L (H1 & c & H2 & H3). split; [done|]. exists c. split; [done|]. by eapply sound_mono. Qed.
Lemma sound_section_mono n n' i x : n ≤ n' → sound_section n i x → sound_section n' i x.
Proof.
  intros L (H1 & H2 & H3 & H4 & H5). split_and!; [by eapply sound_mono..| | |done].
  - eapply Forall_impl; [exact H3|]. intros p (c & E & Hc). exists c. split; [done|]. by eapply sound_mono.
  - eapply Forall_impl; [exact H4|]. intros t. by apply sound_tag_mono.
Qed.

Lemma sturdy_upd h i f : sturdy h → (∀ x, h !! i = Some x → sound_section (length h) i x → sound_section (length h) i (f x)) →
  sturdy (upd h i f).
Proof.
  intros HI Hf j x. rewrite upd_lookup, upd_length. destruct (decide (i = j)) as [->|]; [|by apply HI].
  destruct (h !! j) as [y|] eqn:Hy; simpl; [|done]. intros [= <-]. apply Hf; [done|]. by apply HI.
Qed.

Lemma sturdy_inv E : base_inv E sturdy (λ n c, sound n c = true) (λ _, True).
Proof.
  constructor; simpl; try done.
  - apply sound_closed.
  - intros h parent path HI Hp j x Hx. rewrite app_length. apply lookup_app_Some in Hx as [Hx|[Hj Hx]].
    + eapply sound_section_mono; [|by apply HI]. lia.
    + destruct (j - length h) as [|k] eqn:Ej; simpl in Hx; [|done]. injection Hx as <-.
      split_and!; simpl; try constructor. intros p ->. lia.
  - intros h i l HI. by apply sturdy_upd.
  - intros h i l HI. by apply sturdy_upd.
  - intros h i f HI. by apply sturdy_upd.
  - intros h i c HI Hc. apply sturdy_upd; [done|]. intros x _ (H1 & H2 & H3 & H4 & H5). by split_and!.
  - intros h i title l tags HI _ Hc. apply sturdy_upd; [done|]. intros x _ (H1 & H2 & H3 & H4 & H5).
    destruct (set_title_rest i title l tags x) as (_ & Hb & Hpar & _ & _ & Hp & _ & _ & _ & _ & _ & _ & _ & Ht & Hl).
    destruct (set_title_tags_eq i title l tags x) as [Hts Hpr].
    split_and!; [by rewrite Ht|by rewrite Hb|by rewrite Hp| |].
    + rewrite Hts. apply Forall_fmap, Forall_forall. intros n _. split; [done|]. by exists title.
    + intros p Hpp. apply H5. congruence.
  - intros h i name c HI Hc. apply sturdy_upd; [done|]. intros x _ (H1 & H2 & H3 & H4 & H5).
    split_and!; try done. simpl. clear -H3 Hc. induction (s_partials x) as [|[k v] ps IH]; simpl.
    + repeat constructor. simpl. by exists c.
    + inversion H3; subst. destruct (String.eqb k name); constructor; try done; [by exists c|by apply IH].
  - intros h i name HI. by apply sturdy_upd.
  - intros h i a b c d HI. by apply sturdy_upd.
  - intros h i j HI _ _. by apply sturdy_upd.
  - intros n st c Hst ->. done.
  - intros n l o. split; intros H; by apply forallb_Forall.
  - intros n rows Hr. apply forallb_Forall. eapply Forall_impl; [exact Hr|]. intros r Hr'. by apply forallb_Forall.
  - intros n defs Hd. apply forallb_Forall. eapply Forall_impl; [exact Hd|]. intros [a b] [Ha Hb]. simpl in *. by rewrite Ha, Hb.
  - intros n i t rc l Hi Hx. rewrite !andb_true_iff, Nat.ltb_lt. by destruct rc.
  - intros n t l ti x Ht Hx. rewrite Ht. destruct x; done.
  - intros n i. by rewrite Nat.ltb_lt.
Qed.

(** ** Collection *)

(** [m] keeps a sturdy heap sturdy, and as large as it was. *)
Definition ckeeps (n : nat) (m : CM) : Prop :=
  ∀ s s', length (fst s) = n → m s = Ok s' → sturdy (fst s) → sturdy (fst s') ∧ length (fst s') = n.

Lemma ckeeps_seq n l : Forall (ckeeps n) l → ckeeps n (cseq l).
Proof.
  induction 1 as [|m l Hm _ IH]; intros s s' Hn; simpl; [by intros [= <-]|].
  destruct (m s) as [s1|e| |] eqn:Hs; simpl; [|done..]. intros H K. destruct (Hm _ _ Hn Hs K). by eapply IH.
Qed.
Lemma ckeeps_range n ord l : Forall (ckeeps n) l → ckeeps n (map_range ord l).
Proof.
  intros Hl s s' Hn H. unfold map_range in H. apply (ckeeps_seq n) in H; [done| |done].
  rewrite Forall_forall in *. intros m Hm. apply elem_of_list_omap in Hm as (i & _ & Hi).
  apply Hl. by eapply elem_of_list_lookup_2.
Qed.
Lemma ckeeps_all {A} n (f : A → CM) (b : A → bool) l :
  Forall (λ x, b x = true → ckeeps n (f x)) l → forallb b l = true → ckeeps n (cseq (map f l)).
Proof.
  intros F. rewrite forallb_Forall. intros G. apply ckeeps_seq, Forall_fmap. rewrite Forall_forall in *. intros x Hx. simpl. auto.
Qed.

Lemma visit_ckeeps n ord jump cur c : (∀ a b, ckeeps n (jump a b)) → sound n c = true → ckeeps n (visit ord jump cur c).
Proof.
  intros Hj. assert (ckeeps n cskip) as Hskip by by intros s s' Hn [= <-].
  induction c as [s|l IH|l IH|l IH|sec t rc o l IH|c t IH|s|s|st b c ps IH IHps|t l ti x IH1 IH2|p d|l o IH|rows IH|defs IH|b t|c IH]
      using content_ind'; cbn [visit sound]; intros HB; try done; try (by auto); try by eapply ckeeps_all.
  - rewrite !andb_true_iff in HB. destruct HB as [HB Hps]. destruct ps; [|done].
    apply (ckeeps_seq n [_; _]). apply Forall_cons_2; [by apply IH|]. apply Forall_cons_2; [|constructor].
    apply ckeeps_range. constructor.
  - intros s s' Hn. simpl. destruct (fst s !! cur) as [y|] eqn:Hy; [|done]. intros [= <-] K. simpl.
    split; [|by rewrite upd_length].
    apply sturdy_upd; [done|]. intros z Hz (H1 & H2 & H3 & H4 & H5). split_and!; try done. simpl. apply Forall_app. split; [done|].
    constructor; [|constructor]. split; [done|]. simpl. destruct ti as [ti|]; [|done]. exists ti. split; [done|].
    apply andb_true_iff in HB as [? _]. by rewrite Hn.
  - apply (ckeeps_all _ _ (forallb (sound n))); [|done]. eapply Forall_impl; [exact IH|]. intros r Hr. by apply ckeeps_all.
  - apply (ckeeps_all _ _ (λ p, match p with (s, d) => sound n s && sound n d end)); [|done].
    eapply Forall_impl; [exact IH|]. intros [a b] [Ha Hb] [? ?]%andb_true_iff.
    apply (ckeeps_seq n [_; _]). apply Forall_cons_2; [by apply Ha|]. apply Forall_cons_2; [by apply Hb|constructor].
Qed.

Lemma collect_ckeeps n ord k : ∀ cur con, ckeeps n (collect ord k cur con).
Proof.
  induction k as [|k IH]; intros cur con; simpl; [done|]. unfold visit_section. intros s s' Hn.
  destruct (fst s !! con) as [x|] eqn:Hx; [|done].
  intros H K. destruct (K _ _ Hx) as (H1 & H2 & H3 & H4 & H5). rewrite Hn in H1, H2, H3. apply (ckeeps_seq n) in H; [auto| |done].
  apply Forall_app. split.
  - apply Forall_cons_2; [by apply visit_ckeeps|]. apply Forall_cons_2; [by apply visit_ckeeps|].
    apply Forall_cons_2; [|constructor]. apply ckeeps_range, Forall_fmap.
    eapply Forall_impl; [exact H3|]. intros [p v] (c & E & Hc). simpl in *. rewrite E. by apply visit_ckeeps.
  - apply Forall_fmap, Forall_forall. intros c _. apply IH.
Qed.

(** ** Loads *)

Lemma base_history_sturdy s : base_history s → sturdy (st_heap s).
Proof.
  induction 1 as [|E ord n parent path fs s _ IH Hb Hp]; [done|].
  pose proof (base_eval_inv E _ _ _ Hb (sturdy_inv E)) as HE. unfold load_in, mbind.
  destruct (tr_evaluate_file E _ _ _ HE (eval E n) (tr_eval E _ _ _ HE n) (length (st_heap s)) parent path fs
    Hp (λ _, I) (λ _ _ _, I) s IH (le_n _)) as (HI & _).
  destruct (evaluate_file E (eval E n) parent path fs s) as [s1 [i|e| |]]; simpl in *; try done.
  unfold run_stages. destruct (collect _ _ _ _ _) as [[h k]|e| |] eqn:Hc; simpl; try done.
  by destruct (collect_ckeeps (length (st_heap s1)) _ _ _ _ (st_heap s1, 0) _ eq_refl Hc HI).
Qed.

Lemma base_history_history s : base_history s → history s.
Proof. induction 1; by constructor. Qed.

(** ** No nil pointers *)

Lemma gofix_up {A} (h : heap) (F : (nat → option A) → nat → option A) :
  (∀ g i, i < length h → (∀ j, j < i → is_Some (g j)) → is_Some (F g i)) →
  ∀ n i, i < n → i < length h → is_Some (gofix F n i).
Proof.
  intros HF n. induction n as [|n IH]; intros i Hi Hl; [lia|]. simpl. apply HF; [done|].
  intros j Hj. apply IH; lia.
Qed.

Lemma sturdy_file_path h i : sturdy h → i < length h → is_Some (file_path h i).
Proof.
  intros HS Hi. apply (gofix_up h); [|unfold fuel_of; lia|done]. clear i Hi. intros g i Hi Hg. unfold file_path_F.
  destruct (lookup_lt_is_Some_2 h i Hi) as [x Hx]. rewrite Hx. simpl. destruct (HS _ _ Hx) as (_ & _ & _ & _ & Hp).
  destruct (String.eqb _ _); [|by eexists]. destruct (s_parent x) as [p|]; [by apply Hg, Hp|by eexists].
Qed.
Lemma sturdy_split_prevented h i : sturdy h → i < length h → is_Some (split_prevented h i).
Proof.
  intros HS Hi. apply (gofix_up h); [|unfold fuel_of; lia|done]. clear i Hi. intros g i Hi Hg. unfold split_prevented_F.
  destruct (lookup_lt_is_Some_2 h i Hi) as [x Hx]. rewrite Hx. simpl. destruct (HS _ _ Hx) as (_ & _ & _ & _ & Hp).
  destruct (s_prevent x); [by eexists|]. destruct (s_parent x) as [p|]; [|by eexists].
  destruct (Hg p) as [b Hb]; [by apply Hp|]. rewrite Hb. simpl. destruct b; by eexists.
Qed.

Lemma find_tag_from h i name ts t : find_tag h i name = Some ts → t ∈ ts → ∃ j x, h !! j = Some x ∧ t ∈ s_tags x.
Proof. intros H. by apply (filter_tags_from _ _ _ _ _ H). Qed.

(** The tag of a reference exists and has a title, or there is an error. *)
Lemma sturdy_ref_tag similar broken h sec name l : sturdy h → sec < length h →
  match ref_tag similar broken h sec name false l with
  | Ok (Some t) => ∃ c, t_title t = Some c ∧ sound (length h) c = true
  | Ok None | Panic => False
  | Err _ | NoFuel => True
  end.
Proof.
  intros HS Hsec. unfold ref_tag, resolve.
  assert (∃ c, t_title (broken_tag sec name l) = Some c ∧ sound (length h) c = true) as Hbr by by eexists.
  destruct (find_tag h sec name) as [ts|] eqn:Ef; [|done].
  assert (Forall (λ t, t_section t ≠ None ∧ (∀ j, t_section t = Some j → j < length h) ∧
    ∃ c, t_title t = Some c ∧ sound (length h) c = true) ts) as Hts.
  { apply Forall_forall. intros t Ht. destruct (find_tag_from _ _ _ _ _ Ef Ht) as (j & x & Hx & Hin).
    destruct (HS _ _ Hx) as (_ & _ & _ & HT & _). rewrite Forall_forall in HT. destruct (HT _ Hin) as [Hs Hc].
    rewrite Hs. split; [done|]. split; [|done]. intros ? [= <-]. by eapply lookup_lt_Some. }
  destruct ts as [|t [|t' ts]].
  - destruct (similar_tags _ _ _ _); [|done]. destruct (file_path h sec); [|done]. by destruct broken.
  - inversion Hts; subst. by destruct_and?.
  - set (us := t :: t' :: ts) in *. clearbody us.
    assert (∃ locs, mapM (λ t : tag, match t_section t with
        | Some ts => f ← file_path h ts; Some (ErrLoc f (t_loc t) 0) | None => None end) us = Some locs) as [locs ->].
    { clear -HS Hts. induction Hts as [|u us (H1 & H2 & _) _ [locs IH]]; [by eexists|]. simpl.
      destruct (t_section u) as [j|]; [|done]. destruct (sturdy_file_path h j HS) as [f ->]; [by apply H2|]. simpl.
      rewrite IH. simpl. by eexists. }
    destruct (sturdy_file_path h sec HS Hsec) as [f ->]. by destruct broken.
Qed.

Lemma omapM_no_panic {E A B} (f : A → outcome E B) l : Forall (λ x, f x ≠ Panic) l → omapM f l ≠ Panic.
Proof.
  induction 1 as [|x l Hx _ IH]; [done|].
  change (omapM f (x :: l)) with (obind (λ y, obind (λ ys, Ok (y :: ys)) (omapM f l)) (f x)).
  destruct (f x); simpl; try done. destruct (omapM f l); simpl; done.
Qed.
Lemma obind_no_panic {E A B} (f : A → outcome E B) o : o ≠ Panic → (∀ a, f a ≠ Panic) → obind f o ≠ Panic.
Proof. destruct o; simpl; auto; done. Qed.

Lemma all_sound {P : content → Prop} n l : Forall (λ c, sound n c = true → P c) l → forallb (sound n) l = true → Forall P l.
Proof. intros F. rewrite forallb_Forall. intros G. rewrite Forall_forall in *. auto. Qed.

Lemma cstring_F_no_panic similar broken h jump c : sturdy h → sound (length h) c = true →
  (∀ c, sound (length h) c = true → jump c ≠ Panic) → cstring_F similar broken h jump c ≠ Panic.
Proof.
  intros HS Hc Hj. revert Hc.
  induction c as [s|l IH|l IH|l IH|sec t rc o l IH|c t IH|s|s|st b c ps IH IHps|t l ti x IHt IHx|p d|l o IH|rows IH|defs IH|b t|c IH]
    using content_ind'; cbn [cstring_F sound]; intros Hc; try done; try (by auto);
    try (apply obind_no_panic; [apply omapM_no_panic; by eapply all_sound|done]).
  - rewrite !andb_true_iff, Nat.ltb_lt, negb_true_iff in Hc. destruct Hc as [[Hsec ->] Hrc].
    destruct rc as [c|]; [by apply IH|]. pose proof (sturdy_ref_tag similar broken h sec t l HS Hsec) as Ht.
    destruct (ref_tag _ _ _ _ _ _ _) as [[u|]|e| |]; try done. destruct Ht as (c & -> & Hc). by apply Hj.
  - apply andb_true_iff in Hc as [? _]. auto.
  - apply obind_no_panic; [|done]. apply omapM_no_panic. rewrite forallb_Forall in Hc. rewrite Forall_forall in IH, Hc |- *.
    intros r Hr. apply omapM_no_panic. eapply all_sound; auto.
  - apply obind_no_panic; [|done]. apply omapM_no_panic. rewrite forallb_Forall in Hc. rewrite Forall_forall in IH, Hc |- *.
    intros [a b] Hr. specialize (IH _ Hr). specialize (Hc _ Hr). simpl in *. apply andb_true_iff in Hc as [Ha Hb].
    destruct IH as [IHa IHb]. apply obind_no_panic; [by destruct (cstring_F _ _ _ _ a)|]. intros sa.
    apply obind_no_panic; [by destruct (cstring_F _ _ _ _ b)|done].
Qed.

Lemma cstring_no_panic similar broken h n c : sturdy h → sound (length h) c = true → cstring similar broken h n c ≠ Panic.
Proof.
  intros HS. revert c. induction n as [|n IH]; intros c Hc; cbn [cstring]; by apply cstring_F_no_panic.
Qed.
