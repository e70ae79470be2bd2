(** Loads of base documents that do not panic, and that end. *)
From Coq Require Import Ascii String Lia.
From stdpp Require Import base tactics relations strings list.
From Verif Require Import GoBase StrProofs Ast Content Section ContentSpec ContentProofs TreeSpec TreeProofs TagProofs QueryProofs
  Evaluate EvalProofs EvalFrame EvalInv BaseInv Collect CollectSpec CollectProofs BaseFacts LoadProofs HtmlLoad HtmlProofs
  Sound StringEnds EndSpec Paths EvalEnds.
Local Open Scope string_scope.
Local Open Scope list_scope.

(** ** String() without chains of titles *)

Lemma omapM_ends {E A B} (f : A → outcome E B) l : Forall (λ x, f x ≠ NoFuel) l → omapM f l ≠ NoFuel.
Proof.
  induction 1 as [|x l Hx _ IH]; [done|].
  change (omapM f (x :: l)) with (obind (λ y, obind (λ ys, Ok (y :: ys)) (omapM f l)) (f x)).
  destruct (f x); simpl; try done. destruct (omapM f l); simpl; done.
Qed.
Lemma obind_ends {E A B} (f : A → outcome E B) o : o ≠ NoFuel → (∀ a, f a ≠ NoFuel) → obind f o ≠ NoFuel.
Proof. destruct o; simpl; auto; done. Qed.
Lemma fmt_ends o : o ≠ NoFuel → fmt_s o ≠ NoFuel.
Proof. by destruct o. Qed.

(** The only source of endlessness is a title shown by a reference. *)
Lemma cstring_F_ends similar broken h jump c : wf h → sturdy h → sound (length h) c = true →
  (whole c = true ∨ ∀ t ti, t_title t = Some ti → ((∃ i x, h !! i = Some x ∧ t ∈ s_tags x) ∨ ∃ s, ti = CString s) → jump ti ≠ NoFuel) →
  cstring_F similar broken h jump c ≠ NoFuel.
Proof.
  intros HW HS.
  induction c as [s|l IH|l IH|l IH|sec t rc o l IH|c t IH|s|s|st b c ps IH IHps|t l ti x IHt IHx|p d|l o IH|rows IH|defs IH|b t|c IH]
    using content_ind'; cbn [cstring_F sound whole]; intros Hc Hj; try done; try (by auto).
  1,2,3,6: apply obind_ends; [|done]; apply omapM_ends; rewrite forallb_Forall in Hc; rewrite Forall_forall in IH, Hc |- *;
    intros x Hx; apply IH; [done|by apply Hc|]; destruct Hj as [Hj|Hj]; [left|by right];
    rewrite forallb_Forall, Forall_forall in Hj; by apply Hj.
  - rewrite !andb_true_iff, Nat.ltb_lt, negb_true_iff in Hc. destruct Hc as [[Hsec ->] Hrc].
    destruct rc as [c|]; [by apply IH|]. destruct Hj as [Hj|Hj]; [done|].
    destruct (ref_other similar broken h HW HS sec t false l Hsec) as [Hn Ht].
    destruct (ref_tag _ _ _ _ _ _ _) as [[u|]|e| |] eqn:Hr; try done. destruct (t_title u) as [ti|] eqn:Hti; [|done].
    apply (Hj u); [done|]. destruct (Ht u eq_refl) as [A| ->].
    + left. assert (u ∈ [u]) as Hin by by left. rewrite (all_tags_elem _ _ _ _ _ A) in Hin.
      destruct Hin as (i & x & _ & Hx & Hin & _). eauto.
    + right. simpl in Hti. injection Hti as <-. eauto.
  - apply andb_true_iff in Hc as [? _]. apply IH; [done|]. destruct Hj as [Hj|Hj]; [left|by right]. by apply andb_true_iff in Hj as [? _].
  - apply obind_ends; [|done]. apply omapM_ends. rewrite forallb_Forall in Hc. rewrite Forall_forall in IH, Hc |- *.
    intros r Hr. apply omapM_ends. specialize (IH _ Hr). specialize (Hc _ Hr). rewrite forallb_Forall in Hc.
    rewrite Forall_forall in IH, Hc |- *. intros x Hx. apply IH; [done|by apply Hc|]. destruct Hj as [Hj|Hj]; [left|by right].
    rewrite forallb_Forall, Forall_forall in Hj. specialize (Hj _ Hr). rewrite forallb_Forall, Forall_forall in Hj. by apply Hj.
  - apply obind_ends; [|done]. apply omapM_ends. rewrite forallb_Forall in Hc. rewrite Forall_forall in IH, Hc |- *.
    intros [a b] Hr. specialize (IH _ Hr). specialize (Hc _ Hr). simpl in *. apply andb_true_iff in Hc as [Ha Hb].
    assert ((whole a = true ∧ whole b = true) ∨ (∀ t ti, t_title t = Some ti → ((∃ i x, h !! i = Some x ∧ t ∈ s_tags x) ∨ ∃ s, ti = CString s) → jump ti ≠ NoFuel)) as Hj'.
    { destruct Hj as [Hj|Hj]; [left|by right]. rewrite forallb_Forall, Forall_forall in Hj. specialize (Hj _ Hr). simpl in Hj. by apply andb_true_iff in Hj. }
    destruct IH as [IHa IHb]. apply obind_ends; [apply fmt_ends, IHa; tauto|]. intros sa. apply obind_ends; [apply fmt_ends, IHb; tauto|done].
Qed.

Lemma cstring_ends similar broken h n c : wf h → sturdy h → whole_tags h → sound (length h) c = true →
  cstring similar broken h (S n) c ≠ NoFuel.
Proof.
  intros HW HS HT Hc. cbn [cstring]. apply cstring_F_ends; [done|done|done|]. right. intros t ti Hti [(i & x & Hx & Hin)|[s ->]].
  - assert (whole ti = true) as Hw by by eapply HT. destruct (HS _ _ Hx) as (_ & _ & _ & HF & _). rewrite Forall_forall in HF.
    destruct (HF _ Hin) as (_ & c' & Hc' & Hso). rewrite Hti in Hc'. injection Hc' as <-.
    destruct n; cbn [cstring]; apply cstring_F_ends; auto.
  - destruct n; done.
Qed.

(** ** Loads *)

Lemma sound_no_sec n c : sound n c = true → no_sec c = true.
Proof.
  induction c as [s|l IH|l IH|l IH|sec t rc o l IH|c t IH|s|s|st b c ps IH IHps|t l ti x IHt IHx|p d|l o IH|rows IH|defs IH|b t|c IH]
    using content_ind'; cbn [sound no_sec]; auto; try by apply forallb_mono.
  - rewrite !andb_true_iff. intros [_ ?]. destruct rc; auto.
  - rewrite !andb_true_iff. intros [? ?]. split; [auto|]. by destruct ps.
  - rewrite !andb_true_iff. intros [? ?]. split; [destruct ti|destruct x]; auto.
  - apply forallb_mono. eapply Forall_impl; [exact IH|]. intros r. by apply forallb_mono.
  - apply forallb_mono. eapply Forall_impl; [exact IH|]. intros [a b] [Ha Hb]. simpl in *. rewrite !andb_true_iff. naive_solver.
Qed.
Lemma sturdy_plain h i x : sturdy h → h !! i = Some x → plain x.
Proof.
  intros HS Hx. destruct (HS _ _ Hx) as (H1 & H2 & H3 & _). split_and!; [by eapply sound_no_sec..|].
  eapply Forall_impl; [exact H3|]. intros p (c & Ec & Hc). exists c. split; [done|]. by eapply sound_no_sec.
Qed.

(** Any number of loads of the files of one file system. *)
Inductive loads (E : env) : st → Prop :=
| loads_start : loads E (St [] [])
| loads_next ord n path fs s : loads E s → path ≠ "" → loads E (fst (load E ord n path fs s)).

Lemma loads_history E s : loads E s → history s.
Proof. induction 1 as [|ord n path fs s _ IH _]; [constructor|]. rewrite load_is_in. by constructor. Qed.

Definition anything : heap → Prop := λ _, True.
Lemma any_parts E (B : string → node → Prop) f nd : (∀ f nd, B f nd) → parts_ok E True False B f nd.
Proof. intros HB. destruct nd; simpl; auto. constructor; auto. Qed.

Lemma run_stages_good E DT ord i s : good E DT s → (DT → False) → good E DT (fst (run_stages ord i s)).
Proof.
  intros (HS & HC & _) HD. unfold run_stages. destruct (collect _ _ _ _ _) as [[h k]|e| |] eqn:Hc; simpl; try (split; [done|split; [done|done]]).
  split; [|split; [done|done]]. by destruct (collect_ckeeps (length (st_heap s)) _ _ _ _ (st_heap s, 0) _ eq_refl Hc HS).
Qed.

Lemma pres_start s : pres (St [] []) s.
Proof. split; simpl; [lia|]. intros i f Hf. apply in_file_valid in Hf. simpl in Hf. lia. Qed.

Lemma loads_good E s : base_only E → loads E s → good E False s.
Proof.
  intros HE. induction 1 as [|ord n path fs s _ IH Hp].
  - split; [done|]. split; [done|]. done.
  - unfold load, mbind.
    destruct (te_load E anything True False HE (λ _ _ _ _ _ _, I) (λ _ _ _, True) n path fs) with (s := s) as (HG & _); try done.
    { intros k f nd _. by apply any_parts. }
    { apply pres_start. }
    destruct (load_file E n path fs s) as [s1 [i|e| |]]; simpl in *; try done. by apply run_stages_good.
Qed.

(** Collection of the tags of a new book always succeeds. *)
Lemma stages_end ord h c i : (∀ k n, ord k n ≡ₚ seq 0 n) → wf h → sturdy h → i < length h →
  ∃ h', run_stages ord i (St h c) = (St h' c, Ok i).
Proof.
  intros Hord W HS Hi. destruct (collect_tree ord (fuel_of h) h 0 i Hord W Hi) as (h' & k' & Hc & _).
  { unfold fuel_of. lia. }
  { intros j y _ Hy. by eapply sturdy_plain. }
  exists h'. unfold run_stages. cbn [st_heap st_cache]. by rewrite Hc.
Qed.

Lemma load_outcome E (N : heap → Prop) (PK DT : Prop) ord n path fs s (B : nat → string → node → Prop) : base_only E →
  (∀ h c, sturdy h → (DT → whole_tags h) → sound (length h) c = true → str E h c = NoFuel → N h) →
  (∀ f nd, B 0 f nd → ∀ h, N h) → (∀ n f nd, B (Datatypes.S n) f nd → parts_ok E PK DT (B n) f nd) →
  path ≠ "" → (∀ mt nd, e_fs E path = Some (mt, inl nd) → B n path nd) →
  (∀ k n, ord k n ≡ₚ seq 0 n) → wf (st_heap s) → good E DT s →
  match snd (load E ord n path fs s) with
  | Ok _ | Err _ => True
  | Panic => PK
  | NoFuel => let h := st_heap (fst (load E ord n path fs s)) in N h ∧ wf h ∧ sturdy h
  end.
Proof.
  intros HE HN H0 HB Hne Hp Hord W HG.
  destruct (te_load E N PK DT HE HN B n path fs H0 HB Hne Hp s HG (pres_start s)) as (HG1 & _ & Hr).
  destruct (load_file_facts E n path fs s W) as (W1 & _). unfold load, mbind.
  destruct (load_file E n path fs s) as [[h c] [i|e| |]]; simpl in *; try done.
  - destruct HG1 as (HS & _). destruct (stages_end ord h c i Hord W1 HS Hr) as [h' ->]. done.
  - destruct HG1 as (HS & _). done.
Qed.

(** ** Nodes of the files that can be reached *)

(** [nd] is a part of file [f], reached from [path]. *)
Definition within (E : env) (path f : string) (nd : node) : Prop :=
  rtc (includes (e_fs E)) path f ∧
  ∃ mt tree, e_fs E f = Some (mt, inl tree) ∧ ∀ fn args, calls nd fn args → calls tree fn args.

Lemma within_sub E path f nd nd' : within E path f nd → (∀ fn args, calls nd' fn args → calls nd fn args) → within E path f nd'.
Proof. intros (H & mt & tree & Ht & Hc) H'. split; [done|]. exists mt, tree. auto. Qed.
Lemma within_file E path f mt nd : rtc (includes (e_fs E)) path f → e_fs E f = Some (mt, inl nd) → within E path f nd.
Proof. intros H Hf. split; [done|]. eauto. Qed.
Lemma within_includes E path f fn a l t : within E path f (NInvoke fn [a] l) → method_name fn = "IncludeSection" →
  (∀ u, literal a = Some u → t = u) → is_Some (e_fs E (path_join (path_dir f) t)) →
  includes (e_fs E) f (path_join (path_dir f) t).
Proof.
  intros (_ & mt & tree & Ht & Hc) Hm Hu Hq. exists mt, tree, fn, a, t. split; [done|]. split; [apply Hc; constructor|done].
Qed.

(** What is needed of the parts of a node, apart from where they are. *)
Lemma parts E (PK DT : Prop) path (P' : string → node → Prop) f nd : within E path f nd →
  (match nd with
   | NString _ => True
   | NSeq l => ∀ a, a ∈ l → P' f a
   | NPara ls | NPre ls => ∀ l a, l ∈ ls → a ∈ l → P' f a
   | NInvoke fn args _ =>
     (∀ a, a ∈ args → P' f a) ∧
     (PK ∨ method_name fn = "Section" ∨ ∀ a, a ∈ args → yields a = true) ∧
     (PK ∨ method_name fn ≠ "Title" ∨ length args ≠ 1 ∨ ∀ a, a ∈ args → steady a = true) ∧
     (DT → method_name fn = "Title" → ∀ a rest, args = a :: rest → steady a = true) ∧
     ∀ q mt nd, includes (e_fs E) f q → e_fs E q = Some (mt, inl nd) → P' q nd
   end) → parts_ok E PK DT (λ f nd, within E path f nd ∧ P' f nd) f nd.
Proof.
  intros Hw HP. destruct nd as [t|l|ls|ls|fn args l]; simpl in *.
  - done.
  - intros a Ha. split; [|by apply HP]. eapply within_sub; [exact Hw|]. intros fn args. by apply calls_seq.
  - intros l a Hl Ha. split; [|by eapply HP]. eapply within_sub; [exact Hw|]. intros fn args. by eapply calls_para.
  - intros l a Hl Ha. split; [|by eapply HP]. eapply within_sub; [exact Hw|]. intros fn args. by eapply calls_pre.
  - destruct HP as (H1 & H2 & H3 & H4 & H5). constructor; [|done..|].
    + intros a Ha. split; [|by apply H1]. eapply within_sub; [exact Hw|]. intros fn' args'. by apply calls_arg.
    + intros Hm a -> t Ht mt nd Hq.
      assert (includes (e_fs E) f (path_join (path_dir f) t)) as Hi by (eapply within_includes; eauto).
      split; [|by eapply H5]. eapply within_file; [|exact Hq]. destruct Hw as [Hw _]. by eapply rtc_r.
Qed.

(** ** Panics *)

Lemma safe_parts E path f nd : (∀ p mt nd, rtc (includes (e_fs E)) path p → e_fs E p = Some (mt, inl nd) → safe nd = true) →
  within E path f nd → safe nd = true → parts_ok E False False (λ f nd, within E path f nd ∧ safe nd = true) f nd.
Proof.
  intros Hall Hw Hs. apply (parts E False False path (λ _ nd, safe nd = true)); [done|].
  destruct nd as [t|l|ls|ls|fn args l]; simpl in *.
  - done.
  - rewrite forallb_Forall, Forall_forall in Hs. done.
  - intros l a Hl Ha. rewrite forallb_Forall, Forall_forall in Hs. specialize (Hs _ Hl). rewrite forallb_Forall, Forall_forall in Hs. by apply Hs.
  - intros l a Hl Ha. rewrite forallb_Forall, Forall_forall in Hs. specialize (Hs _ Hl). rewrite forallb_Forall, Forall_forall in Hs. by apply Hs.
  - rewrite !andb_true_iff, !orb_true_iff, !negb_true_iff, !forallb_Forall, !Forall_forall, String.eqb_eq, Nat.eqb_neq, String.eqb_neq in Hs.
    destruct Hs as [[H1 H2] H3]. split; [done|]. split; [tauto|]. split; [tauto|]. split; [done|].
    intros q mt nd Hi Hq. eapply Hall; [|exact Hq]. destruct Hw as [Hw _]. by eapply rtc_r.
Qed.

(** ** Ends *)

Fixpoint depth (nd : node) : nat :=
  match nd with
  | NString _ => 1
  | NSeq l | NInvoke _ l _ => S (list_max (map depth l))
  | NPara ls | NPre ls => S (list_max (map (λ l, list_max (map depth l)) ls))
  end.
Lemma list_max_in {A} (f : A → nat) l x : x ∈ l → f x ≤ list_max (map f l).
Proof.
  intros Hx. pose proof (proj1 (list_max_le (map f l) (list_max (map f l))) (le_n _)) as H. rewrite Forall_forall in H.
  apply H. by apply elem_of_list_fmap_1.
Qed.
Lemma depth_pos nd : 1 ≤ depth nd.
Proof. destruct nd; simpl; lia. Qed.

Section ends.
  Context (E : env) (PK DT : Prop) (path : string) (files : list string).
  Context (Hfiles : ∀ p, is_Some (e_fs E p) → p ∈ files).
  Context (Hcycle : ∀ p, rtc (includes (e_fs E)) path p → ¬ tc (includes (e_fs E)) p p).
  Context (HPK : PK).
  Context (Hdirect : DT → ∀ p mt nd fn a rest, rtc (includes (e_fs E)) path p → e_fs E p = Some (mt, inl nd) →
    calls nd fn (a :: rest) → method_name fn = "Title" → steady a = true).

  Definition file_depth (p : string) : nat := match e_fs E p with Some (_, inl nd) => depth nd | _ => 0 end.
  Definition max_depth : nat := list_max (map file_depth files).
  Definition enough : nat := max_depth * S (length files).

  (** [l]: the files being evaluated. *)
  Definition fits (k : nat) (f : string) (nd : node) : Prop :=
    ∃ l, NoDup l ∧ l ⊆ files ∧ (∀ g, g ∈ l → rtc (includes (e_fs E)) g f) ∧
      depth nd + max_depth * (length files - length l) ≤ k.

  Lemma file_fits mt f nd : e_fs E f = Some (mt, inl nd) → depth nd ≤ max_depth.
  Proof.
    intros Hf. replace (depth nd) with (file_depth f) by (unfold file_depth; by rewrite Hf). apply list_max_in, Hfiles. by rewrite Hf.
  Qed.

  Lemma fits_start mt nd n : e_fs E path = Some (mt, inl nd) → enough ≤ n → fits n path nd.
  Proof.
    intros Hp Hn. exists []. split; [constructor|]. split; [by intros ? ?%elem_of_nil|]. split; [by intros ? ?%elem_of_nil|].
    pose proof (file_fits _ _ _ Hp). unfold enough in Hn. simpl. rewrite Nat.sub_0_r. lia.
  Qed.

  Lemma fits_parts k f nd : within E path f nd → fits (S k) f nd → parts_ok E PK DT (λ f nd, within E path f nd ∧ fits k f nd) f nd.
  Proof.
    intros Hw (st & Hnd & Hsub & Hst & Hk). apply (parts E PK DT path (fits k)); [done|].
    assert (∀ a, S (depth a) ≤ depth nd → fits k f a) as Hpart.
    { intros a Ha. exists st. split_and!; [done..|]. lia. }
    destruct nd as [t|l|ls|ls|fn args l]; cbn [depth] in *.
    - done.
    - intros a Ha. apply Hpart. pose proof (list_max_in depth l a Ha). lia.
    - intros l a Hl Ha. apply Hpart. pose proof (list_max_in depth l a Ha).
      pose proof (list_max_in (λ l, list_max (map depth l)) ls l Hl). simpl in *. lia.
    - intros l a Hl Ha. apply Hpart. pose proof (list_max_in depth l a Ha).
      pose proof (list_max_in (λ l, list_max (map depth l)) ls l Hl). simpl in *. lia.
    - split; [|split; [by left|split; [by left|split]]].
      + intros a Ha. apply Hpart. pose proof (list_max_in depth args a Ha). lia.
      + intros HD Hm a rest ->. destruct Hw as (Hr & mt & tree & Ht & Hc). eapply (Hdirect HD); [exact Hr|exact Ht| |exact Hm].
        apply Hc. constructor.
      + intros q mt nd Hi Hq. destruct Hw as [Hr _].
        assert (q ∉ st) as Hnew.
        { intros Hin. apply (Hcycle q); [by eapply rtc_r|]. eapply tc_rtc_l; [by apply Hst|]. by apply tc_once. }
        assert (NoDup (q :: st)) as Hnd' by by constructor.
        assert (q :: st ⊆ files) as Hsub'.
        { intros g [-> |Hg]%elem_of_cons; [apply Hfiles; by rewrite Hq|by apply Hsub]. }
        exists (q :: st). split_and!; [done|done| |].
        * intros g [-> |Hg]%elem_of_cons; [apply rtc_refl|]. eapply rtc_r; [by apply Hst|done].
        * assert (length (q :: st) ≤ length files) as Hlen.
          { apply submseteq_length. by apply NoDup_submseteq. }
          pose proof (file_fits _ _ _ Hq). simpl in *.
          replace (length files - length st) with (S (length files - S (length st))) in Hk by lia.
          rewrite Nat.mul_succ_r in Hk. lia.
  Qed.

  Lemma fits_zero f nd : fits 0 f nd → False.
  Proof. intros (l & _ & _ & _ & H). pose proof (depth_pos nd). apply Nat.le_0_r, Nat.eq_add_0 in H as [H _]. lia. Qed.
End ends.
