(** Evaluation with the base plugin panics exactly as CrashSpec.v's [crashes] says. *)
From Coq Require Import Ascii String Lia.
From stdpp Require Import base tactics relations strings list.
From Verif Require Import GoBase Ast Content Section ContentSpec ContentProofs TreeSpec TreeProofs TagProofs QueryProofs
  Evaluate EvalProofs EvalFrame EvalInv BaseInv BaseFacts HtmlProofs Sound EndSpec Paths EvalEnds LoadEnds
  EvalSpec EvalTheory EvalFail CrashSpec.
Local Open Scope string_scope.
Local Open Scope list_scope.

Lemma mbind_panic {A B} (m : M A) (f : A → M B) s s' : mbind m f s = (s', Panic) →
  m s = (s', Panic) ∨ ∃ s1 a, m s = (s1, Ok a) ∧ f a s1 = (s', Panic).
Proof. unfold mbind. destruct (m s) as [s1 [a|e'| |]]; try done; [eauto|]. intros [= <-]. auto. Qed.
Lemma mbind_panic_eq {A B} (m : M A) (f : A → M B) s : snd (m s) = Panic → snd (mbind m f s) = Panic.
Proof. unfold mbind. destruct (m s) as [s1 []]; done. Qed.
Lemma mcatch_panic {A} (m : M A) s s' : mcatch m s = (s', Panic) → m s = (s', Panic).
Proof. unfold mcatch. destruct (m s) as [s1 []]; try done. by intros [= <-]. Qed.
Lemma mle_panic {A} (m m' : M A) s : mle m m' → snd (m s) = Panic → snd (m' s) = Panic.
Proof. intros Hm Hs. rewrite Hm; [done|]. by rewrite Hs. Qed.

(** ** New sections *)

Lemma use_plugins_opened parent path (fs : list factory) h c : ∀ fs0,
  mfold (λ _ f, mupd (length h) (use_plugin f)) tt fs (St (h ++ [set_factories (new_section parent path) fs0]) c) =
  (St (h ++ [set_factories (new_section parent path) (fs0 ++ fs)]) c, Ok tt).
Proof.
  induction fs as [|f fs IH]; intros fs0; simpl; [by rewrite (right_id_L [] (++))|].
  erewrite mbind_eq. 2: { unfold mupd, mmod. reflexivity. }
  simpl. assert (upd (h ++ [set_factories (new_section parent path) fs0]) (length h) (use_plugin f) =
    h ++ [set_factories (new_section parent path) (fs0 ++ [f])]) as ->.
  { unfold upd. rewrite list_lookup_middle by done. rewrite insert_app_r_alt by done. by rewrite Nat.sub_diag. }
  rewrite IH. by rewrite <- (assoc_L (++)).
Qed.

Lemma section_opened rec parent path nd fs s (k : nat → unit → M nat) :
  mbind (alloc parent path) (λ i, mbind (evaluate_section rec i nd fs) (k i)) s =
  mbind (rec (length (st_heap s)) None nd)
    (λ r, mbind (match r with Some c => mupd (length (st_heap s)) (λ s, set_body s c) | None => mret tt end) (k (length (st_heap s))))
    (opened parent path fs s).
Proof.
  unfold alloc. erewrite mbind_eq by reflexivity. unfold evaluate_section.
  pose proof (use_plugins_opened parent path fs (st_heap s) (st_cache s) []) as H. simpl in H.
  change (set_factories (new_section parent path) []) with (new_section parent path) in H.
  unfold mbind at 1 2. rewrite H. simpl. fold (opened parent path fs s). unfold mbind.
  destruct (rec _ _ _ _) as [s2 [r|e| |]]; done.
Qed.

Lemma section_panics rec parent path nd fs s (k : nat → unit → M nat) : (∀ i u s, snd (k i u s) ≠ Panic) →
  snd (mbind (alloc parent path) (λ i, mbind (evaluate_section rec i nd fs) (k i)) s) = Panic ↔
  snd (rec (length (st_heap s)) None nd (opened parent path fs s)) = Panic.
Proof.
  intros Hk. rewrite section_opened. split; [|apply mbind_panic_eq].
  unfold mbind. destruct (rec _ _ _ _) as [s2 [[c|]|e| |]]; simpl; try done; intros H; by apply Hk in H.
Qed.

Lemma node_panics rec parent nd fs s : snd (evaluate_node rec parent nd fs s) = Panic ↔
  snd (rec (length (st_heap s)) None nd (opened (Some parent) "" fs s)) = Panic.
Proof. apply (section_panics rec (Some parent) "" nd fs s (λ i _, mret i)). done. Qed.

Lemma file_panics E rec parent path fs s : cache_ok E s →
  snd (evaluate_file E rec parent path fs s) = Panic ↔
  ∃ mt nd, e_fs E path = Some (mt, inl nd) ∧ snd (rec (length (st_heap s)) None nd (opened parent path fs s)) = Panic.
Proof.
  intros HC. unfold evaluate_file. destruct (e_fs E path) as [[mt parsed]|] eqn:Hfs; [|split; [done|by intros (?&?&?&?)]].
  assert (parse_step path mt parsed s = (s, match parsed with inl n => Ok n | inr e => Err e end) ∨ ∃ nd, parsed = inl nd ∧ parse_step path mt parsed s = (s, Ok nd)) as Hps.
  { unfold parse_step. destruct (assoc_get path (st_cache s)) as [[nd t]|] eqn:Hc; [|by left].
    destruct (Nat.ltb t mt); [by left|]. destruct (HC _ _ _ Hc) as [mt' Hmt]. right. exists nd. split; [congruence|done]. }
  assert (match parsed with inl nd => parse_step path mt parsed s = (s, Ok nd) | inr e => ∃ e', parse_step path mt parsed s = (s, Err e') end) as Hp.
  { destruct Hps as [->|(nd & -> & ->)]; [|done]. destruct parsed; [done|eauto]. }
  destruct parsed as [nd|e].
  - erewrite mbind_eq by exact Hp.
    rewrite (section_panics rec parent path nd fs s (λ i _ s, (St (st_heap s) (assoc_set path (nd, mt) (st_cache s)), Ok i))) by done.
    split; [eauto|]. intros (mt' & nd' & [= <- <-] & H). done.
  - destruct Hp as [e' He]. unfold mbind at 1. rewrite He. split; [done|]. by intros (?&?&?&?).
Qed.

(** ** Methods that evaluate nothing themselves *)

Definition nested : list string := ["Section"; "IncludeSection"].

Lemma method_alone E rec rec' self name m argv s : base_method name = Some m → name ∉ nested →
  run_prog E rec self (m_body m self argv) s = run_prog E rec' self (m_body m self argv) s.
Proof.
  intros Hm Hn. unfold base_method in Hm. apply assoc_get_In in Hm. unfold base_table in Hm.
  repeat (apply elem_of_cons in Hm as [Hm|Hm]; [injection Hm as -> ->|]); try by inversion Hm.
  all: try (exfalso; apply Hn; unfold nested; set_solver).
  all: unfold m_use_plugin, m_styled, m_title, m_aux, m_split, styled_method, m_link, m_reference, m_target, list_method, m_image,
    m_set_partial, m_table, m_definitions, m_definition, m_single_page, m_omit, m_toc; cbn [m_body].
  all: unfold ill_typed, ret_con_err; repeat case_match; try reflexivity.
  all: cbn [run_prog getself getpath]; unfold mbind, mheap; repeat case_match; try reflexivity.
  all: cbn [run_prog getself getpath]; unfold mbind, mheap; repeat case_match; reflexivity.
Qed.

Section crash.
  Context (E : env) (HE : base_only E).

  (** States in which a section of a file is evaluated. *)
  Definition fine (self : nat) (s : st) : Prop :=
    good E False s ∧ wf (st_heap s) ∧ ∃ f, in_file (st_heap s) self f.

  Lemma fine_valid self s : fine self s → valid (st_heap s) self.
  Proof. intros (_ & _ & f & Hf). by eapply in_file_valid. Qed.
  Lemma fine_section self s : fine self s → ∃ x, st_heap s !! self = Some x.
  Proof. intros Hv%fine_valid. by apply lookup_lt_is_Some_2. Qed.

  Lemma te_any n self f acc nd s0 : in_file (st_heap s0) self f → qs s0 acc →
    te E anything True False s0 (eval E n self acc nd) (λ s o, qs s o ∧ adds acc [nd] o).
  Proof.
    intros Hf Hq. apply (te_eval E anything True False HE (λ _ _ _ _ _ _, I) (λ _ _ _, True)) with (f := f); try done.
    intros k g nd' _. by apply any_parts.
  Qed.
  Lemma te_any_convert n self f p s0 : in_file (st_heap s0) self f →
    te E anything True False s0 (convert E (eval E n) self (fst p) (snd p)) (λ s, argrel s p).
  Proof.
    intros Hf. apply (te_convert E anything True False (λ _ _ _ _ _ _, I) (λ _ _, True)) with (f := f); auto.
    intros. by apply te_any with (f := f0).
  Qed.

  Lemma fine_eval n self acc nd s s' r : fine self s → qs s acc → eval E n self acc nd s = (s', r) →
    fine self s' ∧ ∀ o, r = Ok o → qs s' o.
  Proof.
    intros (HG & HW & f & Hf) Hq He. destruct (te_any n self f acc nd s Hf Hq s HG (pres_refl _)) as (HG' & [_ Hp] & HQ).
    destruct (eval_valid E self n acc nd s s' r He HW (in_file_valid _ _ _ Hf)) as [HW' _].
    rewrite He in HG', Hp, HQ. simpl in *. split; [split_and!; [done|done|eauto]|]. intros o ->. apply HQ.
  Qed.
  Lemma fine_yields self s nd s' cs : fine self s → yields E self (runs E self) s nd s' cs →
    fine self s' ∧ qs s' (joined cs) ∧ ∃ n, ∀ acc, eval E n self acc nd s = (s', Ok (fold_append acc cs)).
  Proof.
    intros HF Y. pose proof HF as (_ & HW & _).
    destruct (yields_valid E self s nd s' cs Y HW (fine_valid _ _ HF)) as ([n Hn] & _).
    destruct (fine_eval n self None nd s s' _ HF I (Hn None)) as [HF' HQ]. split; [done|]. split; [|eauto].
    rewrite <- fold_append_joined. by apply HQ.
  Qed.
  Lemma fine_convert n self p s s' v : fine self s → convert E (eval E n) self (fst p) (snd p) s = (s', Ok v) →
    fine self s' ∧ argrel s' p v ∧ pres s s'.
  Proof.
    intros (HG & HW & f & Hf) He. destruct (te_any_convert n self f p s Hf s HG (pres_refl _)) as (HG' & Hpres & HQ).
    destruct (convert_valid E self n (fst p) (snd p) s s' (Ok v) He HW (in_file_valid _ _ _ Hf)) as [HW' _].
    rewrite He in HG', Hpres, HQ. simpl in *. split; [split_and!; [done|done|exists f; by apply Hpres]|]. done.
  Qed.
  Lemma fine_args n self ps s s' vs : fine self s → mmap (λ p, convert E (eval E n) self (fst p) (snd p)) ps s = (s', Ok vs) →
    fine self s' ∧ Forall2 (argrel s') ps vs ∧ pres s s'.
  Proof.
    revert s vs. induction ps as [|p ps IH]; intros s vs HF H; cbn [mmap] in H.
    - injection H as <- <-. split; [done|]. split; [constructor|apply pres_refl].
    - apply mbind_ok in H as (s1 & v & Hc & H). apply mbind_ok in H as (s2 & vs' & Hm & [= <- <-]).
      destruct (fine_convert _ _ _ _ _ _ HF Hc) as (HF1 & Hr & Hp1). destruct (IH _ _ HF1 Hm) as (HF2 & HR & Hp2).
      split; [done|]. split; [|by eapply pres_trans]. constructor; [|done]. by eapply argrel_mono.
  Qed.

  Lemma fine_touch self l s : fine self s → fine self (touch self l s).
  Proof.
    intros HF. pose proof HF as ((HS & HC & HD) & HW & f & Hf). destruct (touch_valid self l s HW (fine_valid _ _ HF)) as [HW' _].
    split_and!; [split_and!; [|done|done]|done|].
    - by apply (bi_invloc _ _ _ _ (sturdy_inv E)).
    - exists f. pose proof (pres_upd self (λ x, set_invloc x l) s (st_cache s) (λ _, conj eq_refl eq_refl)) as [_ Hp]. by apply Hp.
  Qed.

  Lemma fine_opened parent path fs s : good E False s → wf (st_heap s) →
    match parent with Some p => fine p s | None => path ≠ "" end →
    fine (length (st_heap s)) (opened parent path fs s).
  Proof.
    intros HG HW Hp.
    assert (match parent with Some p => p < length (st_heap s) | None => True end) as Hv.
    { destruct parent; [|done]. by apply fine_valid in Hp. }
    assert (opened parent path fs s = St (upd (st_heap s ++ [new_section parent path]) (length (st_heap s)) (λ y, set_factories y fs)) (st_cache s)) as Ho.
    { unfold opened, upd. rewrite list_lookup_middle by done. rewrite insert_app_r_alt by done. by rewrite Nat.sub_diag. }
    pose proof (te_alloc E anything True False s parent path Hv s HG (pres_refl _)) as (HG1 & [_ Hp1] & _). simpl in HG1, Hp1.
    pose proof (te_use E anything True False (St (st_heap s ++ [new_section parent path]) (st_cache s)) (length (st_heap s)) fs _ HG1 (pres_refl _)) as (HG2 & [_ Hp2] & _).
    pose proof (use_plugins_opened parent path fs (st_heap s) (st_cache s) []) as Hu. simpl in Hu.
    change (set_factories (new_section parent path) []) with (new_section parent path) in Hu. rewrite Hu in HG2, Hp2. simpl in HG2, Hp2.
    split_and!; [done| |].
    - rewrite Ho. apply upd_wf; [done|]. apply alloc_wf; [done|]. destruct parent; done.
    - unfold opened. simpl. set (x := set_factories _ fs). assert ((st_heap s ++ [x]) !! length (st_heap s) = Some x) as Hx by by apply list_lookup_middle.
      destruct (String.eqb_spec path "") as [->|Hne].
      + destruct parent as [p|]; [|done]. destruct Hp as (_ & _ & f & Hf). exists f.
        eapply in_parent; [exact Hx|done|done|]. by apply Hp2, Hp1.
      + exists path. by apply (in_own _ _ x).
  Qed.

  (** ** Bodies *)

  Lemma attach_no_panic self f attach setloc r s : in_file (st_heap s) self f → snd (attach_result self attach setloc r s) ≠ Panic.
  Proof.
    intros Hf%in_file_valid. apply lookup_lt_is_Some_2 in Hf as [x Hx]. destruct r as [i|e]; [|done]. unfold attach_result, mbind, mheap.
    destruct setloc; simpl; rewrite ?Hx; by destruct attach.
  Qed.
  Lemma res_no_panic rec self (r : nat + Section.error) s : snd (run_prog E rec self (res_ret r) s) ≠ Panic.
  Proof. by destruct r. Qed.

  Lemma nested_panics rec self f attach setloc (m : M nat) s : in_file (st_heap (fst (m s))) self f →
    snd (mbind (mcatch m) (λ r, mbind (attach_result self attach setloc r) (λ _, run_prog E rec self (res_ret r))) s) = Panic ↔
    snd (m s) = Panic.
  Proof.
    intros Hf. split.
    - destruct (mbind _ _ s) as [s' o] eqn:Hb. simpl. intros ->. apply mbind_panic in Hb as [Hb|(s1 & r & H1 & Hb)].
      + apply mcatch_panic in Hb. by rewrite Hb.
      + assert (in_file (st_heap s1) self f) as Hf1.
        { unfold mcatch in H1. destruct (m s) as [s2 []]; simpl in *; try done; by injection H1 as <- _. }
        apply mbind_panic in Hb as [Hb|(s2 & u & _ & Hb)].
        * pose proof (attach_no_panic self f attach setloc r s1 Hf1) as HH. by rewrite Hb in HH.
        * pose proof (res_no_panic rec self r s2) as HH. by rewrite Hb in HH.
    - intros Hm. apply mbind_panic_eq. unfold mcatch. destruct (m s) as [s2 []]; done.
  Qed.

  Lemma empty_iff c : is_empty c = true ↔ c = CString "".
  Proof. destruct c as [[|a t]| | | | | | | | | | | | | | |]; simpl; split; congruence. Qed.

  Lemma title_panics n self c argv s : qs s (Some c) → str_args argv = Some (omap (λ v, match v with AStr t => Some t | _ => None end) argv) →
    fine self s →
    snd (run_prog E (eval E n) self (m_body m_title self (ACon (Some c) :: argv)) s) = Panic ↔
    argv = [] ∧ ∃ y, st_heap s !! self = Some y ∧ s_title y = CString "" ∧ strippable c = false.
  Proof.
    intros Hc Hargv HF. destruct (fine_section _ _ HF) as [x Hx]. cbn [m_body m_title]. rewrite Hargv. set (tags := omap _ argv) in *.
    assert (tags = [] ↔ argv = []) as Ht.
    { split; [|by intros ->]. intros Hn. rewrite Hn in Hargv. destruct argv as [|v argv]; [done|]. by destruct v. }
    cbn [run_prog getself]. unfold mheap. unfold mbind at 1. rewrite Hx.
    destruct (is_empty (s_title x)) eqn:He.
    - apply empty_iff in He. cbn [run_prog run_op]. unfold mbind, mheap, mlift. unfold title_tags.
      destruct tags as [|t ts] eqn:Hts.
      + unfold default_tag. assert (argv = []) as -> by by apply Ht. destruct (strip_aux c) as [c'|] eqn:Hst; simpl.
        * assert (sound (length (st_heap s)) c' = true) as Hc' by by eapply strip_sound.
          assert (strippable c = true) as Hstr by (apply strip_total; by rewrite Hst).
          destruct HF as ((HS & _) & _).
          destruct (cstring _ _ _ _ c') eqn:Hcs; simpl; (split; [|intros (_ & y & _ & _ & ?); congruence]); try done.
          intros _. by apply cstring_no_panic in Hcs.
        * split; [|done]. intros _. split; [done|]. exists x. split; [done|]. split; [done|]. apply not_true_is_false.
          intros Hs%strip_total. rewrite Hst in Hs. by destruct Hs.
      + simpl. split; [done|]. intros [-> _]. discriminate (proj2 Ht eq_refl).
    - destruct HF as ((HS & _) & _ & f & Hf). cbn [run_prog getpath]. unfold mbind, mheap. rewrite (in_file_path _ self f) by done. simpl.
      split; [done|]. intros (_ & y & Hy & Hty & _). assert (y = x) as -> by congruence. by rewrite Hty in He.
  Qed.

  Lemma nested_file n parent path fs s : fine parent s → path ≠ "" →
    ∃ f, in_file (st_heap (fst (evaluate_file E (eval E n) (Some parent) path fs s))) parent f.
  Proof.
    intros HF Hne. pose proof HF as (HG & _ & f & Hf). exists f.
    assert (parent < length (st_heap s)) as Hv by by eapply in_file_valid.
    destruct (te_file E anything True False (λ _ _, True) (eval E n)) with (s0 := s) (parent := Some parent) (path := path) (fs := fs) (s := s)
      as (_ & [_ Hp] & _); try done.
    { intros. by apply te_any with (f := f0). }
    by apply Hp.
  Qed.
  Lemma nested_node n parent nd fs s : fine parent s →
    ∃ f, in_file (st_heap (fst (evaluate_node (eval E n) parent nd fs s))) parent f.
  Proof.
    intros HF. pose proof HF as (HG & _ & f & Hf). exists f.
    destruct (te_node E anything True False (λ _ _, True) (eval E n)) with (s0 := s) (parent := parent) (f := f) (nd := nd) (fs := fs) (s := s)
      as (_ & [_ Hp] & _); try done.
    { intros. by apply te_any with (f := f0). }
    by apply Hp.
  Qed.

  Lemma str_args_omap argv ss : str_args argv = Some ss → ss = omap (λ v, match v with AStr t => Some t | _ => None end) argv.
  Proof.
    revert ss. induction argv as [|v argv IH]; intros ss; simpl; [by intros [= <-]|]. destruct v; try done.
    destruct (str_args argv) as [ts|]; simpl; [|done]. intros [= <-]. simpl. f_equal. by apply IH.
  Qed.

  Lemma method_panics n self fn args m argv s : base_method (method_name fn) = Some m → arity_ok m (length args) = true →
    Forall2 (argrel s) (arg_types m args) argv → existsb is_zero argv = false → fine self s →
    snd (run_prog E (eval E n) self (m_body m self argv) s) = Panic ↔
    (method_name fn = "Title" ∧ ∃ c y, argv = [ACon (Some c)] ∧ st_heap s !! self = Some y ∧ s_title y = CString "" ∧ strippable c = false) ∨
    (method_name fn = "Section" ∧ ∃ nd x, argv = [ANode nd] ∧ st_heap s !! self = Some x ∧
      snd (eval E n (length (st_heap s)) None nd (opened (Some self) "" (s_factories x) s)) = Panic) ∨
    (method_name fn = "IncludeSection" ∧ ∃ t f mt nd, argv = [AStr t] ∧ file_path (st_heap s) self = Some f ∧
      e_fs E (path_join (path_dir f) t) = Some (mt, inl nd) ∧
      snd (eval E n (length (st_heap s)) None nd (opened (Some self) (path_join (path_dir f) t) [FBase] s)) = Panic).
  Proof.
    intros Hm Ha HA Hz HF.
    destruct (decide (method_name fn = "Title")) as [Hn|Hn1].
    { rewrite Hn in *. injection Hm as <-. destruct args as [|a args]; [done|]. cbn in HA. rewrite drop_0 in HA.
      inversion HA as [|? v ? vs Hv HA']; subst. unfold argrel in Hv. simpl in Hv. destruct v as [|[c|]|]; try done.
      destruct Hv as (Hq & _). destruct (str_args_ok _ _ _ HA') as (ss & Hss & _).
      rewrite (title_panics n self c vs s Hq); [|by rewrite <- (str_args_omap _ _ Hss)|done].
      split.
      - intros (-> & y & ?). left. split; [done|]. by exists c, y.
      - intros [(_ & c' & y & [= <- ->] & ?)|[[? _]|[? _]]]; [|done|done]. split; [done|]. by exists y. }
    destruct (decide (method_name fn = "Section")) as [Hn|Hn2].
    { rewrite Hn in *. injection Hm as <-. destruct args as [|a [|]]; try done. cbn in HA.
      inversion HA as [|? v ? vs Hv HA']; subst. inversion HA'; subst. unfold argrel in Hv. simpl in Hv. destruct v as [| |nd]; try done. subst nd.
      destruct (fine_section _ _ HF) as [x Hx]. cbn [m_body m_section run_prog getself]. unfold mheap. unfold mbind at 1. rewrite Hx. cbn [run_prog].
      destruct (nested_node n self a (s_factories x) s HF) as [f Hf].
      rewrite (nested_panics (eval E n) self f true true (evaluate_node (eval E n) self a (s_factories x)) s Hf), node_panics. split.
      - intros H. right. left. split; [done|]. by exists a, x.
      - intros [[? _]|[(_ & nd & y & [= <-] & Hy & H)|[? _]]]; [done| |done]. by assert (y = x) as -> by congruence. }
    destruct (decide (method_name fn = "IncludeSection")) as [Hn|Hn3].
    { rewrite Hn in *. injection Hm as <-. destruct args as [|a [|]]; try done. cbn in HA.
      inversion HA as [|? v ? vs Hv HA']; subst. inversion HA'; subst. unfold argrel in Hv. simpl in Hv. destruct v as [t| |]; try done.
      pose proof HF as ((HS & HC & _) & _ & f & Hf). cbn [m_body m_include run_prog getpath]. unfold mheap. unfold mbind at 1.
      pose proof (in_file_path _ self f HS Hf) as Hfp. rewrite Hfp. cbn [run_prog].
      destruct (nested_file n self (path_join (path_dir f) t) [FBase] s HF (path_join_nonempty _ _)) as [f' Hf'].
      rewrite (nested_panics (eval E n) self f' true false (evaluate_file E (eval E n) (Some self) (path_join (path_dir f) t) [FBase]) s Hf'),
        file_panics by done. split.
      - intros (mt & nd & Hfs & H). right. right. split; [done|]. by exists t, f, mt, nd.
      - intros [[? _]|[[? _]|(_ & t' & f2 & mt & nd & [= <-] & Hf2 & Hfs & H)]]; [done|done|].
        assert (f2 = f) as -> by congruence. by exists mt, nd. }
    split; [|by intros [[? _]|[[? _]|[? _]]]].
    rewrite (method_alone E (eval E n) (λ _ _ _, mfail (Err (EArgType ""))) self (method_name fn) m argv s Hm).
    2: { unfold nested. set_solver. }
    intros Hp. exfalso. destruct HF as (HG & _ & f & Hf).
    pose proof (te_method E anything False False (λ _ _ _ _ _ _, I) (λ _ _, True) (λ _ _ _, mfail (Err (EArgType "")))) as H.
    destruct (H ltac:(intros; apply te_err) s self f fn args (Loc 0 0 0) m argv) with (s := s) as (_ & _ & HP); try done.
    { by right; left. }
    by rewrite Hp in HP.
  Qed.

  Lemma base_find fs name m : find_method E fs name = Some m ↔ FBase ∈ fs ∧ base_method name = Some m.
  Proof.
    destruct HE as [Hb Ho]. induction fs as [|f fs IH]; cbn [find_method].
    - split; [done|]. intros [H _]. by apply elem_of_nil in H.
    - destruct f as [|i].
      + rewrite Hb. destruct (base_method name) as [m'|] eqn:Hm; [split|].
        * intros [= <-]. split; [left|done].
        * by intros [_ [= <-]].
        * rewrite IH. split; intros [_ ?]; done.
      + rewrite Ho by done. rewrite IH. split; intros [H1 H2]; (split; [|done]); [by right|]. by apply elem_of_cons in H1 as [|].
  Qed.

  (** ** Only as described *)

  Section sound.
    Context (n : nat).
    Context (Hn : ∀ self acc nd s s', fine self s → qs s acc → eval E n self acc nd s = (s', Panic) → crashes E self s nd).

    Lemma seq_crashes self : ∀ l acc s s', fine self s → qs s acc → visit_seq (eval E n) self acc l s = (s', Panic) → crashes_all E self s l.
    Proof.
      induction l as [|nd l IH]; intros acc s s' HF Hq He; unfold visit_seq in *; simpl in He; [done|].
      apply mbind_panic in He as [He|(s1 & a & H1 & He)]; [left; by eapply Hn|].
      destruct (fine_eval _ _ _ _ _ _ _ HF Hq H1) as [HF1 Hq1].
      apply eval_sound in H1 as (cs & Y & _). eapply crash_later; [done|]. eapply IH; [done| |done]. by apply Hq1.
    Qed.

    Lemma lines_crash self : ∀ lines s s', fine self s → visit_lines (eval E n) self lines s = (s', Panic) → crashes_lines E self s lines.
    Proof.
      intros lines s s' HF He. apply mbind_panic in He as [He|(s1 & a & H1 & He)]; [|done].
      revert s s' HF He. induction lines as [|l lines IH]; intros s s' HF He; simpl in He; [done|].
      apply mbind_panic in He as [He|(s1 & a & H1 & He)]; [left; by eapply (seq_crashes self l None)|].
      apply mbind_panic in He as [He|(s2 & b & H2 & He)]; [|done].
      destruct (fine_eval (S n) self None (NSeq l) s s1 (Ok a) HF I H1) as [HF1 _].
      apply (visit_seq_sound E self n (eval_sound E self n)) in H1 as (cs & Y & _).
      eapply crash_later_line; [done|by eapply IH].
    Qed.

    Lemma args_crash self m : ∀ args i s s', accepts m (i + length args) → fine self s →
      mmap (λ p, convert E (eval E n) self (fst p) (snd p)) (types_from m i args) s = (s', Panic) →
      crashes_args E self s m i args.
    Proof.
      induction args as [|nd args IH]; intros i s s' Ha HF Hm; [by rewrite types_from_nil in Hm|].
      simpl in Ha. destruct (param_exists m i _ Ha) as [ty Hty].
      rewrite (types_from_cons _ _ _ _ _ Hty) in Hm. cbn [mmap fst snd] in Hm.
      apply mbind_panic in Hm as [Hc|(s1 & v & Hc & Hm)].
      - destruct ty as [| | |name]; simpl in Hc; [| |done|done].
        + apply mbind_panic in Hc as [Hc|(s1 & [c|] & H1 & Hc)].
          * eapply crash_this_arg; [done|by left|]. by eapply (Hn self None).
          * exfalso. destruct (fine_eval _ _ None _ _ _ _ HF I H1) as [HF1 Hq]. specialize (Hq _ eq_refl).
            destruct HF1 as ((HS & _) & _). rewrite (mbind_eq mheap _ _ s1 _ eq_refl) in Hc.
            apply mbind_panic in Hc as [Hc|(s3 & t & _ & Hc)]; [|done].
            unfold mlift in Hc. injection Hc as _ Hc. by apply cstring_no_panic in Hc.
          * apply eval_sound in H1 as (cs & Y & Hcs). eapply crash_no_text; [done|done|]. by rewrite <- fold_append_joined.
        + apply mbind_panic in Hc as [Hc|(s1 & c & H1 & Hc)]; [|done].
          eapply crash_this_arg; [done|by right|]. by eapply (Hn self None).
      - apply mbind_panic in Hm as [Hm|(s2 & vs & _ & Hm)]; [|done].
        destruct (fine_convert n self (ty, nd) s s1 v HF Hc) as (HF1 & _).
        apply (convert_sound E self n (eval_sound E self n)) in Hc.
        eapply crash_later_arg; [done|done|]. eapply IH; [|done|done]. by rewrite Nat.add_succ_r in Ha.
    Qed.
  End sound.

  Lemma okret_handle s y w rets fn el acc s' : okret s y w rets → handle_results fn el acc rets s' ≠ (s', Panic).
  Proof. by intros [(c & [->| ->] & _)|[(e & [->| ->])|(_ & [->| ->])]]. Qed.

  Lemma eval_crashes n : ∀ self acc nd s s', fine self s → qs s acc → eval E n self acc nd s = (s', Panic) → crashes E self s nd.
  Proof.
    induction n as [|n IH]; intros self acc nd s s' HF Hq He; simpl in He; [done|].
    destruct nd as [t|l|l|l|fn args l]; simpl in He; [done|..].
    - constructor. by eapply (seq_crashes n IH self l acc).
    - apply mbind_panic in He as [He|(s1 & para & _ & He)]; [constructor; by eapply (lines_crash n IH)|].
      destruct para as [|c [|]]; try done. by destruct (is_flow c).
    - apply mbind_panic in He as [He|(s1 & pre & _ & He)]; [|done]. constructor. by eapply (lines_crash n IH).
    - destruct (fine_section _ _ HF) as [x Hx]. pose proof HF as (HG & HW & f0 & Hf0).
      pose proof (fine_touch self l s HF) as HF1.
      destruct (find_method E (s_factories x) (method_name fn)) as [m|] eqn:Hm.
      2: { exfalso. unfold visit_invoke in He. rewrite (mbind_eq _ _ _ _ _ (touch_eq self l s)) in He.
           rewrite (mbind_eq mheap _ _ (touch self l s) _ eq_refl) in He.
           assert (st_heap (touch self l s) !! self = Some (set_invloc x l)) as Hx1 by (simpl; by rewrite (upd_lookup_eq _ _ _ x)).
           rewrite Hx1 in He. destruct HF1 as ((HS1 & _) & _ & f1 & Hf1). rewrite (in_file_path _ self f1 HS1 Hf1) in He.
           simpl in He. rewrite (mbind_eq (mopt (Some f1)) _ _ (touch self l s) f1 eq_refl) in He. by rewrite Hm in He. }
      pose proof Hm as Hd. apply dispatches_find in Hd. apply base_find in Hm as [Hfa Hbm].
      destruct (invoke_start E self n acc fn args l s x m HW (fine_valid _ _ HF) Hx Hd) as (f & Hf & Hinv). rewrite Hinv in He. clear Hinv.
      destruct (arity_ok m (length args)) eqn:Ha; [|done]. pose proof Ha as Ha'. apply accepts_ok in Ha'.
      assert (calls_base s self fn args m) as Hcall by by exists x.
      apply mbind_panic in He as [He|(s2 & argv & Hargs & He)].
      { eapply crash_arg; [done|]. by eapply (args_crash n IH self m args 0 (touch self l s)). }
      pose proof Hargs as Hargs'. apply (args_sound E self n m (eval_sound E self n)) in Hargs; [|done].
      rewrite types_from_0 in Hargs'. destruct (fine_args n self _ _ _ _ HF1 Hargs') as (HF2 & HR & _).
      destruct (existsb is_zero argv) eqn:Hz.
      { eapply crash_nothing; [done|done|]. apply existsb_exists in Hz as (v & Hv & Hz). apply elem_of_list_In in Hv.
        by destruct v as [|[]|]. }
      apply mbind_panic in He as [He|(s3 & rets & Hb & He)].
      + assert (snd (run_prog E (eval E n) self (m_body m self argv) s2) = Panic) as Hp by by rewrite He.
        apply (method_panics n self fn args m argv s2 Hbm Ha HR Hz HF2) in Hp as
          [(Hname & c & y & -> & Hy & Hti & Hst)|[(Hname & nd & y & -> & Hy & Hp)|(Hname & t & f' & mt & nd & -> & Hf' & Hfs & Hp)]].
        * rewrite Hname in Hbm. injection Hbm as <-. destruct args as [|a [|b args]].
          { by inversion Hargs. }
          2: { inversion Hargs as [|? ? ? ? ? ? ? ? ? ? ? ? Hr]; subst. inversion Hr. }
          inversion Hargs as [|? ? ? ty ? ? ? ? ? ? Hp1 Hv Hr]; subst. inversion Hr; subst.
          inversion Hv as [|? ? ? cs Y|]; subst. eapply crash_title; try done.
        * rewrite Hname in Hbm. injection Hbm as <-. destruct args as [|a [|b args]]; [done| |done].
          inversion Hargs as [|? ? ? ty ? ? ? ? ? ? Hp1 Hv Hr]; subst. inversion Hr; subst. inversion Hv; subst.
          assert (y = set_invloc x l) as ->.
          { simpl in Hy. rewrite (upd_lookup_eq _ _ _ x) in Hy by done. congruence. }
          assert (length (st_heap (touch self l s)) = length (st_heap s)) as Hlen by (simpl; by rewrite upd_length).
          destruct (eval E n _ _ _ _) as [s4 o] eqn:Hp'. simpl in Hp. subst o.
          eapply crash_section; [done|done|exact Hx|]. rewrite Hlen in Hp'.
          eapply (IH _ None); [|done|exact Hp']. rewrite <- Hlen. apply fine_opened; [apply HF2..|exact HF2].
        * rewrite Hname in Hbm. injection Hbm as <-. destruct args as [|a [|b args]]; [done| |done].
          inversion Hargs as [|? ? ? ty ? ? ? ? ? ? Hp1 Hv Hr]; subst. inversion Hr; subst.
          assert (ty = TStr) as -> by (destruct Hp1 as [Hp1|[Hp1 _]]; simpl in Hp1; [congruence|lia]).
          destruct (eval E n _ _ _ _) as [s4 o] eqn:Hp'. simpl in Hp. subst o.
          eapply crash_include; [done|done|exact Hv|done|done|].
          eapply (IH _ None); [|done|exact Hp']. apply fine_opened; [apply HF2..|exact HF2].
      + exfalso. destruct HF2 as (HG2 & _ & f2 & Hf2).
        destruct (te_method E anything True False (λ _ _ _ _ _ _, I) (λ _ _, True) (eval E n)) with (s0 := s2) (s := s2) (self := self) (f := f2) (fn := fn) (args := args)
          (l := l) (m := m) (argv := argv) as (_ & _ & HP); try done.
        { intros. by apply te_any with (f := f1). }
        { by left. }
        rewrite Hb in HP. simpl in HP.
        destruct (handle_results fn _ acc rets s3) as [s4 o] eqn:Hh. injection He as -> ->.
        assert (s' = s3) as ->.
        { destruct rets as [|[[]|[]|] [|[[]|[]|] []]]; simpl in Hh; by injection Hh as <-. }
        by apply (okret_handle _ _ _ _ _ _ _ _ HP) in Hh.
  Qed.

  (** ** Always as described *)

  Let P self s nd := fine self s → ∃ n, ∀ acc, snd (eval E n self acc nd s) = Panic.
  Let P1 self s l := fine self s → ∃ n, ∀ acc, snd (visit_seq (eval E n) self acc l s) = Panic.
  Let P2 self s lines := fine self s → ∃ n, snd (mmap (visit_seq (eval E n) self None) lines s) = Panic.
  Let P3 self s m i args := fine self s →
    ∃ n, snd (mmap (λ p, convert E (eval E n) self (fst p) (snd p)) (types_from m i args) s) = Panic.

  (** An invocation, up to the call. *)
  Lemma call_start n acc self s fn args l m : fine self s → calls_base s self fn args m →
    base_method (method_name fn) = Some m ∧ arity_ok m (length args) = true ∧
    ∃ el, visit_invoke E (eval E n) self acc fn args l s =
      (argv <- mmap (λ p, convert E (eval E n) self (fst p) (snd p)) (types_from m 0 args);;
       if existsb is_zero argv then mfail Panic
       else rets <- run_prog E (eval E n) self (m_body m self argv);; handle_results fn el acc rets) (touch self l s).
  Proof.
    intros HF (x & Hx & Hfa & Hm & Ha). apply accepts_ok in Ha. split; [done|]. split; [done|].
    pose proof HF as (_ & HW & _).
    destruct (invoke_start E self n acc fn args l s x m HW (fine_valid _ _ HF) Hx) as (f & _ & H).
    { apply dispatches_find, base_find. done. }
    rewrite Ha in H. eauto.
  Qed.
  (** A body that panics. *)
  Lemma call_panics k n acc self s fn args l m s1 argv : fine self s → calls_base s self fn args m →
    mmap (λ p, convert E (eval E k) self (fst p) (snd p)) (types_from m 0 args) (touch self l s) = (s1, Ok argv) →
    existsb is_zero argv = false → k ≤ n →
    snd (run_prog E (eval E n) self (m_body m self argv) s1) = Panic →
    snd (visit_invoke E (eval E n) self acc fn args l s) = Panic.
  Proof.
    intros HF HC Hm Hz Hk Hp. destruct (call_start n acc self s fn args l m HF HC) as (_ & _ & el & ->).
    erewrite mbind_eq. 2: { eapply mle_ok; [|exact Hm]. apply mle_map. intros. apply mle_convert, eval_mono. lia. }
    rewrite Hz. by apply mbind_panic_eq.
  Qed.

  Lemma crashes_complete :
    (∀ self s nd, crashes E self s nd → P self s nd) ∧
    (∀ self s l, crashes_all E self s l → P1 self s l) ∧
    (∀ self s lines, crashes_lines E self s lines → P2 self s lines) ∧
    (∀ self s m i args, crashes_args E self s m i args → P3 self s m i args).
  Proof.
    apply crashes_mutind; unfold P, P1, P2, P3.
    - intros self s l _ IH HF. destruct (IH HF) as [n Hn]. by exists (S n).
    - intros self s l _ IH HF. destruct (IH HF) as [n Hn]. exists (S n). intros acc. simpl.
      unfold visit_lines. by apply mbind_panic_eq, mbind_panic_eq.
    - intros self s l _ IH HF. destruct (IH HF) as [n Hn]. exists (S n). intros acc. simpl.
      unfold visit_lines. by apply mbind_panic_eq, mbind_panic_eq.
    - intros self s fn args l m HC _ IH HF. destruct (IH (fine_touch _ _ _ HF)) as [n Hn]. exists (S n). intros acc. simpl.
      destruct (call_start n acc self s fn args l m HF HC) as (_ & _ & el & ->). by apply mbind_panic_eq.
    - intros self s fn args l m s1 argv HC HY Hz HF. pose proof (fine_touch self l s HF) as HF1. pose proof HF1 as (_ & HW1 & _).
      pose proof (proj2 (proj2 (proj2 (proj2 (yields_complete E self)))) _ _ _ _ _ _ HY HW1 (fine_valid _ _ HF1)) as [n Hn].
      exists (S n). intros acc. simpl. destruct (call_start n acc self s fn args l m HF HC) as (_ & _ & el & ->).
      erewrite mbind_eq by exact Hn. assert (existsb is_zero argv = true) as ->; [|done].
      apply existsb_exists. exists (ACon None). split; [by apply elem_of_list_In|done].
    - intros self s fn a l m s1 y cs c HC Hname HY Hj Hy Hti Hst HF. pose proof (fine_touch self l s HF) as HF1.
      destruct (fine_yields _ _ _ _ _ HF1 HY) as (HF2 & Hq & n & Hn). exists (S n). intros acc. simpl.
      destruct (call_start n acc self s fn [a] l m HF HC) as (Hm & Ha & _). rewrite Hname in Hm. injection Hm as <-.
      assert (mmap (λ p, convert E (eval E n) self (fst p) (snd p)) (types_from m_title 0 [a]) (touch self l s) = (s1, Ok [ACon (Some c)])) as Hmap.
      { rewrite types_from_0. cbn [arg_types m_in m_variadic m_title zip zip_with drop length app map mmap fst snd convert].
        unfold mbind. rewrite Hn, fold_append_joined, Hj. reflexivity. }
      apply (call_panics n n acc self s fn [a] l m_title s1 [ACon (Some c)] HF HC Hmap eq_refl); [done|].
      rewrite Hj in Hq. apply (title_panics n self c [] s1); [done|done|done|]. split; [done|]. by exists y.
    - intros self s fn nd l m x HC Hname Hx _ IH HF. pose proof (fine_touch self l s HF) as HF1.
      assert (length (st_heap (touch self l s)) = length (st_heap s)) as Hlen by (simpl; by rewrite upd_length).
      destruct IH as [n Hn]. { rewrite <- Hlen. apply fine_opened; [apply HF1..|exact HF1]. }
      exists (S n). intros acc. simpl.
      destruct (call_start n acc self s fn [nd] l m HF HC) as (Hm & Ha & _). pose proof Hm as Hbm. rewrite Hname in Hm. injection Hm as <-.
      apply (call_panics n n acc self s fn [nd] l m_section (touch self l s) [ANode nd] HF HC); [done|done|done|].
      apply (method_panics n self fn [nd] m_section [ANode nd] (touch self l s) Hbm Ha); [by repeat constructor|done|done|].
      right. left. split; [done|]. exists nd, (set_invloc x l). split; [done|]. split; [simpl; by rewrite (upd_lookup_eq _ _ _ x)|].
      rewrite Hlen. apply Hn.
    - intros self s fn a l m s1 t f mt nd HC Hname HY Hf Hfs _ IH HF. pose proof (fine_touch self l s HF) as HF1. pose proof HF1 as (_ & HW1 & _).
      destruct (proj1 (proj2 (proj2 (proj2 (yields_complete E self)))) _ _ _ _ _ HY HW1 (fine_valid _ _ HF1)) as [n1 H1].
      destruct (fine_convert n1 self (TStr, a) (touch self l s) s1 (AStr t) HF1 H1) as (HF2 & Hr & _).
      destruct IH as [n2 H2]. { apply fine_opened; [apply HF2..|exact HF2]. }
      exists (S (n1 `max` n2)). intros acc. simpl.
      destruct (call_start 0 acc self s fn [a] l m HF HC) as (Hm & Ha & _). pose proof Hm as Hbm. rewrite Hname in Hm. injection Hm as <-.
      assert (mmap (λ p, convert E (eval E n1) self (fst p) (snd p)) (types_from m_include 0 [a]) (touch self l s) = (s1, Ok [AStr t])) as Hmap.
      { rewrite types_from_0. change (arg_types m_include [a]) with [(TStr, a)]. cbn [mmap]. erewrite mbind_eq by exact H1. reflexivity. }
      apply (call_panics n1 _ acc self s fn [a] l m_include s1 [AStr t] HF HC Hmap eq_refl); [lia|].
      apply (method_panics (n1 `max` n2) self fn [a] m_include [AStr t] s1 Hbm Ha); [by repeat constructor|done|done|].
      right. right. split; [done|]. exists t, f, mt, nd. split; [done|]. split; [done|]. split; [done|].
      eapply mle_panic; [|apply (H2 None)]. apply eval_mono. lia.
    - intros self s nd l _ IH HF. destruct (IH HF) as [n Hn]. exists n. intros acc. unfold visit_seq. simpl. by apply mbind_panic_eq.
    - intros self s nd l s1 cs HY _ IH HF. destruct (fine_yields _ _ _ _ _ HF HY) as (HF1 & _ & n1 & H1).
      destruct (IH HF1) as [n2 H2]. exists (n1 `max` n2). intros acc. unfold visit_seq. simpl. erewrite mbind_eq.
      2: { eapply mle_ok; [|apply H1]. apply eval_mono. lia. }
      eapply mle_panic; [|apply H2]. apply mle_visit_seq, eval_mono. lia.
    - intros self s l lines _ IH HF. destruct (IH HF) as [n Hn]. exists n. simpl. by apply mbind_panic_eq.
    - intros self s l lines s1 cs HY _ IH HF. pose proof HF as (_ & HW & _).
      destruct (proj1 (proj2 (yields_complete E self)) _ _ _ _ HY HW (fine_valid _ _ HF)) as [n1 H1].
      destruct (fine_eval (S n1) self None (NSeq l) s s1 (Ok (fold_append None cs)) HF I (H1 None)) as [HF1 _].
      destruct (IH HF1) as [n2 H2]. exists (n1 `max` n2). simpl.
      erewrite mbind_eq. 2: { eapply mle_ok; [|apply H1]. apply mle_visit_seq, eval_mono. lia. }
      apply mbind_panic_eq. eapply mle_panic; [|apply H2]. apply mle_map. intros. apply mle_visit_seq, eval_mono. lia.
    - intros self s m i ty nd args Hp Hty _ IH HF. destruct (IH HF) as [n Hn]. exists n.
      rewrite (types_from_cons _ _ _ _ _ Hp). simpl. apply mbind_panic_eq.
      destruct Hty as [->| ->]; simpl; by apply mbind_panic_eq.
    - intros self s m i nd args s1 cs Hp HY Hj HF. destruct (fine_yields _ _ _ _ _ HF HY) as (HF1 & _ & n & Hn). exists n.
      rewrite (types_from_cons _ _ _ _ _ Hp). simpl. apply mbind_panic_eq. erewrite mbind_eq by apply Hn.
      by rewrite fold_append_joined, Hj.
    - intros self s m i ty nd args s1 v Hp HY _ IH HF. pose proof HF as (_ & HW & _).
      destruct (proj1 (proj2 (proj2 (proj2 (yields_complete E self)))) _ _ _ _ _ HY HW (fine_valid _ _ HF)) as [n1 H1].
      destruct (fine_convert n1 self (ty, nd) s s1 v HF H1) as (HF1 & _). destruct (IH HF1) as [n2 H2].
      exists (n1 `max` n2). rewrite (types_from_cons _ _ _ _ _ Hp). simpl. erewrite mbind_eq.
      2: { eapply mle_ok; [|apply H1]. apply mle_convert, eval_mono. lia. }
      apply mbind_panic_eq. eapply mle_panic; [|apply H2]. apply mle_map. intros. apply mle_convert, eval_mono. lia.
  Qed.

  Lemma eval_panics self s nd : fine self s →
    (∃ n, snd (eval E n self None nd s) = Panic) ↔ crashes E self s nd.
  Proof.
    intros HF. split.
    - intros [n Hn]. destruct (eval E n self None nd s) as [s' o] eqn:He. simpl in Hn. subst o. by eapply (eval_crashes n self None).
    - intros HC. destruct (proj1 crashes_complete _ _ _ HC HF) as [n Hn]. eauto.
  Qed.
End crash.
