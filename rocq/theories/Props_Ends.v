(** C35: loading a document does not crash. C55: loading terminates. *)
From Coq Require Import Ascii String Lia.
From stdpp Require Import base tactics relations strings list.
From Verif Require Import Peg GoBase StrProofs Ast Content Section ContentSpec TreeSpec TreeProofs TagProofs QueryProofs
  Evaluate EvalProofs EvalFrame EvalInv BaseInv Collect LoadProofs DemoDoc Sound EvalSpec EvalTheory CrashSpec EndSpec Paths EvalEnds LoadEnds EvalCrash CollectSpec CollectProofs NilPartial.
Local Open Scope string_scope.
Local Open Scope list_scope.

(** A file system given by the texts of files. *)
Definition text_fs (files : list (string * string)) (p : string) : option (nat * (node + Section.error)) :=
  match assoc_get p files with
  | Some text => match go_parse text with PVal (VNode nd) => Some (1, inl nd) | _ => None end
  | None => None
  end.
Definition text_env (files : list (string * string)) : env := Env (text_fs files) (λ _, None)
  (λ f name, match f with FBase => base_method name | FExt _ => None end) (λ _ _, false) false 10.
Lemma text_env_base files : base_only (text_env files).
Proof. split; [done|]. by intros [|n] Hf. Qed.

(** ** C35 *)

(** The claim as it stands is false. Passing an invocation that yields no content as
    an argument calls a method with a zero reflect.Value, or String() on nil; a
    reference or target without contents of its own, in a title that has no tag, is
    stripped of auxiliary content by a method call on nil. *)
Definition crash1 : string := "Hello \bold{\single-page} there".
Definition crash2 : string := "\title{About \reference{foo}}".
Definition crash3 : string := "\use-plugin{\omit-children-from-table-of-contents}".
Definition crash4 : string := "\title{About \target{foo}}".

Theorem load_no_panic_refuted : Forall (λ text,
  ∃ nd, go_parse text = PVal (VNode nd) ∧
    snd (load (text_env [("/b/x.lit", text)]) in_order 20 "/b/x.lit" [FBase] (St [] [])) = Panic)
  [crash1; crash2; crash3; crash4].
Proof. repeat constructor; eexists; (split; [vm_compute; reflexivity|]); vm_compute; reflexivity. Qed.
Print Assumptions load_no_panic_refuted.

(** Exactly when: the file is there and can be parsed, and its evaluation comes to one
    of the points described by [crashes], whatever was loaded before. *)
Theorem load_panics : ∀ E ord path fs s, base_only E → (∀ k n, ord k n ≡ₚ seq 0 n) → loads E s → path ≠ "" →
  let crash := ∃ mt nd, e_fs E path = Some (mt, inl nd) ∧ crashes E (length (st_heap s)) (opened None path fs s) nd in
  (∀ n, snd (load E ord n path fs s) = Panic → crash) ∧
  (crash → ∃ n0, ∀ n, n0 ≤ n → snd (load E ord n path fs s) = Panic).
Proof.
  intros E ord path fs s HE Hord Hs Hp crash. pose proof (loads_good E s HE Hs) as HG.
  destruct (history_wf s (loads_history E s Hs)) as [W _].
  assert (fine E (length (st_heap s)) (opened None path fs s)) as HF by by apply fine_opened.
  assert (cache_ok E s) as HC by apply HG.
  split.
  - intros n Hn.
    assert (snd (load_file E n path fs s) = Panic) as Hf.
    { revert Hn. unfold load, mbind. pose proof (load_file_facts E n path fs s W) as [W1 _].
      destruct (te_load E anything True False HE (λ _ _ _ _ _ _, I) (λ _ _ _, True) n path fs) with (s := s) as ((HS1 & _) & _ & Hi); try done.
      { intros k f nd _. by apply any_parts. }
      { apply pres_start. }
      destruct (load_file E n path fs s) as [[h1 c1] [i|e| |]]; simpl in *; try done.
      destruct (stages_end ord h1 c1 i Hord W1 HS1 Hi) as [h' Hst]. by rewrite Hst. }
    apply file_panics in Hf as (mt & nd & Hfs & Hf); [|done]. exists mt, nd. split; [done|].
    apply (eval_panics E HE _ _ _ HF). eauto.
  - intros (mt & nd & Hfs & Hc). apply (eval_panics E HE _ _ _ HF) in Hc as [n0 Hn0]. exists n0. intros n Hn.
    unfold load. apply mbind_panic_eq. apply file_panics; [done|]. exists mt, nd. split; [done|].
    eapply mle_panic; [|exact Hn0]. by apply eval_mono.
Qed.
Print Assumptions load_panics.

(** The first document's crash, as described: the argument of [\bold] is evaluated, and
    nothing is left to be passed. *)
Example crash1_crashes : ∃ nd, go_parse crash1 = PVal (VNode nd) ∧
  crashes (text_env [("/b/x.lit", crash1)]) 0 (opened None "/b/x.lit" [FBase] (St [] [])) nd.
Proof.
  exists (NSeq [NPara [[NString "Hello "; NInvoke "bold" [NSeq [NInvoke "single-page" [] (Loc 1 13 12)]] (Loc 1 7 6); NString " there"]]]).
  split; [vm_compute; reflexivity|].
  apply crash_seq, crash_here, crash_para, crash_line. eapply crash_later; [constructor|]. apply crash_here.
  eapply (crash_nothing _ 0 _ "bold" _ _ (styled_method "bold") _ [ACon (joined [])]); [| |left].
  { eexists. split; [reflexivity|]. split; [left|]. split; reflexivity. }
  eapply args_cons; [by left| |constructor]. apply arg_con. constructor. change (@nil content) with (@nil content ++ []).
  eapply yields_cons; [|constructor].
  eapply (yields_invoke _ _ _ _ "single-page" [] _ _ m_single_page _ [] _ [] []); [reflexivity|by left|done|constructor| | |constructor].
  - by intros ?%elem_of_nil.
  - exists 0. reflexivity.
Qed.

(** A crash in a section of an included file. *)
Definition deep_files : list (string * string) :=
  [("/b/x.lit", "\title{T}" +:+ String nl "" +:+ String nl "" +:+ "\include-section{y/z.lit}"); ("/b/y/z.lit", "\section{" +:+ String nl "" +:+ "  \title{See \reference{foo}}" +:+ String nl "" +:+ "}")].
Example deep_crash : crashes (text_env deep_files) 0 (opened None "/b/x.lit" [FBase] (St [] []))
  (match e_fs (text_env deep_files) "/b/x.lit" with Some (_, inl nd) => nd | _ => NSeq [] end).
Proof.
  destruct (load_panics (text_env deep_files) in_order "/b/x.lit" [FBase] (St [] [])) as [H _].
  { apply text_env_base. } { done. } { constructor. } { done. }
  destruct (H 40) as (mt & nd & Hfs & Hc).
  { vm_compute. reflexivity. }
  rewrite Hfs. exact Hc.
Qed.

(** In particular, a load of files without empty arguments and without such titles does
    not panic. [safe] is a syntactic condition, sufficient but not necessary. *)
Theorem load_no_panic : ∀ E ord n path fs s, base_only E → (∀ k n, ord k n ≡ₚ seq 0 n) → loads E s → path ≠ "" →
  (∀ p mt nd, rtc (includes (e_fs E)) path p → e_fs E p = Some (mt, inl nd) → safe nd = true) →
  snd (load E ord n path fs s) ≠ Panic.
Proof.
  intros E ord n path fs s HE Hord Hs Hp Hall.
  destruct (history_wf s (loads_history E s Hs)) as [W _].
  pose proof (load_outcome E anything False False ord n path fs s (λ _ f nd, within E path f nd ∧ safe nd = true)
    HE (λ _ _ _ _ _ _, I) (λ _ _ _ _, I)) as H.
  intros Hpanic. rewrite Hpanic in H. apply H; try done.
  - intros _ f nd [H1 H2]. by apply safe_parts.
  - intros mt nd Hfs. split; [eapply within_file; [apply rtc_refl|exact Hfs]|]. eapply Hall; [apply rtc_refl|exact Hfs].
  - by apply loads_good.
Qed.
Print Assumptions load_no_panic.

(** Other plugins can do more harm. Whatever they are: if one leaves a section of the
    book with a partial that is nil, the load does not succeed. *)
Theorem nil_partial_fails : ∀ E ord n parent path fs s s1 i j x name, (∀ k n, ord k n ≡ₚ seq 0 n) →
  evaluate_file E (eval E n) parent path fs s = (s1, Ok i) →
  descendant (st_heap s1) i j → st_heap s1 !! j = Some x → (name, None) ∈ s_partials x →
  ∀ r, snd (load_in E ord n parent path fs s) ≠ Ok r.
Proof.
  intros * O E D Hx Hn r. unfold load_in, Evaluate.mbind. rewrite E. unfold run_stages.
  destruct (collect _ _ _ _ _) as [[h k]| | |] eqn:C; simpl; try done. intros _.
  eapply collect_nil in C; [|exact O|exact D|apply shape_refl|exact Hx]. by apply C.
Qed.
Print Assumptions nil_partial_fails.

(** It panics; so does a method that returns nil for its content. *)
Definition bad_method (name : string) : option method :=
  if String.eqb name "NilPartial" then Some (Method [] None (λ _ _, POp (OSetPartial "x" None) (PRet [])))
  else if String.eqb name "NilContent" then Some (Method [] None (λ _ _, PRet [RCon None]))
  else None.
Definition bad_env (text : string) : env := Env (text_fs [("/b/x.lit", text)]) (λ _, None)
  (λ f name, match f with FBase => base_method name | FExt _ => bad_method name end) (λ _ _, false) false 10.
Theorem plugin_panics_refuted :
  snd (load (bad_env "\nil-partial") in_order 20 "/b/x.lit" [FBase; FExt 0] (St [] [])) = Panic ∧
  snd (load (bad_env "a \nil-content") in_order 20 "/b/x.lit" [FBase; FExt 0] (St [] [])) = Panic ∧
  snd (evaluate_file (bad_env "\nil-partial") (eval (bad_env "\nil-partial") 20) None "/b/x.lit" [FBase; FExt 0] (St [] [])) = Ok 0.
Proof. split_and!; vm_compute; reflexivity. Qed.
Print Assumptions plugin_panics_refuted.

(** The demonstration book is safe. *)
Example demo_safe : ∀ p mt nd, e_fs demo_env p = Some (mt, inl nd) → safe nd = true.
Proof.
  intros p mt nd. simpl. unfold demo_fs. destruct (String.eqb p _); [|destruct (String.eqb p _); [|done]].
  all: intros [= <- <-]; vm_compute; reflexivity.
Qed.
Example demo_no_panic : snd demo_load ≠ Panic.
Proof.
  apply load_no_panic; [exact demo_env_base|done|constructor|done|]. intros p mt nd _. apply demo_safe.
Qed.

(** ** C55 *)

(** The claim as it stands is false: a file may include itself. *)
Definition self_path : string := "/b/self.lit".
Definition self_env : env := text_env [(self_path, "\include-section{self.lit}")].
Definition self_arg : node := NSeq [NString "self.lit"].
Definition self_call : node := NInvoke "include-section" [self_arg] (Loc 1 1 0).
Definition self_tree : node := NSeq [NPara [[self_call]]].
Lemma self_fs : e_fs self_env self_path = Some (1, inl self_tree).
Proof. vm_compute. reflexivity. Qed.

Section self.
  Context (s : st) (i : nat) (x : section).
  Context (Hx : st_heap s !! i = Some x) (Hp : s_path x = self_path) (Hf : s_factories x = [FBase]) (Hc : st_cache s = []).
  Let s1 := St (upd (st_heap s) i (λ x, set_invloc x (Loc 1 1 0))) [].

  Lemma self_path_found : file_path (st_heap s1) i = Some self_path.
  Proof.
    unfold file_path, fuel_of. simpl. unfold file_path_F at 1. rewrite upd_lookup, decide_True, Hx by done. simpl. rewrite Hp. reflexivity.
  Qed.
  Lemma self_call_step rec acc : visit_invoke self_env rec i acc "include-section" [self_arg] (Loc 1 1 0) s =
    mbind (mmap (λ p, convert self_env rec i (fst p) (snd p)) [(TStr, self_arg)]) (λ argv,
      if existsb is_zero argv then mfail Panic
      else mbind (run_prog self_env rec i (m_body m_include i argv))
        (handle_results "include-section" (ErrLoc self_path (Loc 1 1 0) 16) acc)) s1.
  Proof.
    unfold visit_invoke, mupd, mmod, mheap. unfold mbind at 1. rewrite Hc. fold s1. unfold mbind at 1.
    replace (st_heap s1 !! i) with (Some (set_invloc x (Loc 1 1 0))) by (simpl; by rewrite upd_lookup, decide_True, Hx).
    rewrite self_path_found. unfold mopt. unfold mbind at 1. change (s_factories (set_invloc x (Loc 1 1 0))) with (s_factories x). rewrite Hf.
    change (find_method self_env [FBase] (method_name "include-section")) with (Some m_include). reflexivity.
  Qed.
End self.

Lemma bind_endless {A B} (m : M A) (f : A → M B) s : snd (m s) = NoFuel → snd (mbind m f s) = NoFuel.
Proof. unfold mbind. destruct (m s) as [s1 [a|e| |]]; simpl; done. Qed.
Lemma catch_endless {A} (m : M A) s : snd (m s) = NoFuel → snd (mcatch m s) = NoFuel.
Proof. unfold mcatch. destruct (m s) as [s1 [a|e| |]]; simpl; done. Qed.

Definition endless (rec : nat → option content → node → M (option content)) : Prop :=
  ∀ s i x, st_heap s !! i = Some x → s_path x = self_path → s_factories x = [FBase] → st_cache s = [] →
  snd (rec i None self_tree s) = NoFuel.

Lemma file_endless rec parent s : endless rec → st_cache s = [] →
  snd (evaluate_file self_env rec parent self_path [FBase] s) = NoFuel.
Proof.
  intros Hrec Hc. unfold evaluate_file. rewrite self_fs. unfold mbind at 1, parse_step. rewrite Hc. simpl assoc_get. cbv iota beta.
  unfold mbind at 1, alloc. rewrite Hc. apply bind_endless. unfold evaluate_section, mbind at 1. simpl mfold. unfold mbind at 1, mupd, mmod. simpl.
  apply bind_endless. apply Hrec with (x := use_plugin FBase (new_section parent self_path)); [|reflexivity..].
  simpl. by rewrite upd_lookup, decide_True, list_lookup_middle by done.
Qed.

Lemma self_endless n : endless (eval self_env n).
Proof.
  induction (lt_wf n) as [n _ IH]. intros s i x Hx Hp Hf Hc.
  destruct n as [|[|[|n]]]; [done|done|done|].
  assert (snd (visit_invoke self_env (eval self_env n) i None "include-section" [self_arg] (Loc 1 1 0) s) = NoFuel) as H.
  { rewrite (self_call_step s i x Hx Hp Hf Hc). set (s1 := St (upd _ _ _) []).
    pose proof (self_path_found s i x Hx Hp) as Hfp. fold s1 in Hfp.
    destruct n as [|[|n]]; [done|done|].
    change (snd (mbind (run_prog self_env (eval self_env (Datatypes.S (Datatypes.S n))) i (m_body m_include i [AStr "self.lit"]))
        (handle_results "include-section" (ErrLoc self_path (Loc 1 1 0) 16) None) s1) = NoFuel).
    apply bind_endless. cbn [m_body m_include getpath run_prog]. unfold mheap. unfold mbind at 1. rewrite Hfp.
    change (path_join (path_dir self_path) "self.lit") with self_path. cbn [run_prog].
    apply bind_endless, catch_endless, file_endless; [|done]. apply IH. lia. }
  cbn [eval eval_F self_tree visit_seq mfold visit_lines mmap]. repeat first [exact H|apply bind_endless].
Qed.

Theorem load_ends_refuted : go_parse "\include-section{self.lit}" = PVal (VNode self_tree) ∧
  ∀ n ord, snd (load self_env ord n self_path [FBase] (St [] [])) = NoFuel.
Proof.
  split; [vm_compute; reflexivity|]. intros n ord. unfold load, load_file. apply bind_endless, file_endless; [|done]. apply self_endless.
Qed.
Print Assumptions load_ends_refuted.

(** Otherwise loading ends, or runs into C56's problem: [fits] bounds the recursion of
    the evaluator by the sizes and the number of files, and if this is not enough, it
    is String() of some content that has not ended. *)
Theorem load_ends : ∀ E path (files : list string), base_only E → path ≠ "" →
  (∀ p, is_Some (e_fs E p) → p ∈ files) →
  (∀ p, rtc (includes (e_fs E)) path p → ¬ tc (includes (e_fs E)) p p) →
  ∃ n0, ∀ n ord fs s s', n0 ≤ n → (∀ k n, ord k n ≡ₚ seq 0 n) → loads E s →
    load E ord n path fs s = (s', NoFuel) →
    ∃ c, sound (length (st_heap s')) c = true ∧ cstring (e_similar E) (e_broken E) (st_heap s') (e_jumps E) c = NoFuel.
Proof.
  intros E path files HE Hp Hfiles Hcycle. exists (enough E files). intros n ord fs s s' Hn Hord Hs Hl.
  destruct (history_wf s (loads_history E s Hs)) as [W _].
  pose proof (load_outcome E (λ h, ∃ c, sound (length h) c = true ∧ str E h c = NoFuel) True False ord n path fs s
    (λ k f nd, within E path f nd ∧ fits E files k f nd) HE) as H. rewrite Hl in H. apply H; try done.
  - intros h c _ _ Hc Hstr. eauto.
  - intros f nd [_ H0]. by apply fits_zero in H0.
  - intros k f nd [H1 H2]. by apply fits_parts.
  - intros mt nd Hfs. split; [eapply within_file; [apply rtc_refl|exact Hfs]|]. by eapply fits_start.
  - by apply loads_good.
Qed.
Print Assumptions load_ends.

(** With titles that do not show other titles it ends: titles are given no reference
    or target without contents of its own. Earlier loads must have left no other
    titles behind; there are none in the first load. *)
Theorem load_ends_direct : ∀ E path (files : list string), base_only E → path ≠ "" → 1 ≤ e_jumps E →
  (∀ p, is_Some (e_fs E p) → p ∈ files) →
  (∀ p, rtc (includes (e_fs E)) path p → ¬ tc (includes (e_fs E)) p p) →
  (∀ p mt nd fn a rest, rtc (includes (e_fs E)) path p → e_fs E p = Some (mt, inl nd) →
    calls nd fn (a :: rest) → method_name fn = "Title" → steady a = true) →
  ∃ n0, ∀ n ord fs s, n0 ≤ n → (∀ k n, ord k n ≡ₚ seq 0 n) → loads E s → whole_tags (st_heap s) →
    snd (load E ord n path fs s) ≠ NoFuel.
Proof.
  intros E path files HE Hp Hj Hfiles Hcycle Hd. exists (enough E files). intros n ord fs s Hn Hord Hs HT Hl.
  destruct (history_wf s (loads_history E s Hs)) as [W _].
  pose proof (load_outcome E (λ h, whole_tags h ∧ ∃ c, sound (length h) c = true ∧ str E h c = NoFuel) True True ord n path fs s
    (λ k f nd, within E path f nd ∧ fits E files k f nd) HE) as H. rewrite Hl in H.
  destruct H as ([HW (c & Hc & Hstr)] & Hwf & HS); try done.
  - intros h c _ HW Hc Hstr. split; [by apply HW|]. eauto.
  - intros f nd [_ H0]. by apply fits_zero in H0.
  - intros k f nd [H1 H2]. by apply fits_parts.
  - intros mt nd Hfs. split; [eapply within_file; [apply rtc_refl|exact Hfs]|]. by eapply fits_start.
  - destruct (loads_good E s HE Hs) as (H1 & H2 & _). by split_and!.
  - unfold str in Hstr. destruct (e_jumps E) as [|j]; [lia|]. by apply cstring_ends in Hstr.
Qed.
Print Assumptions load_ends_direct.

(** The demonstration book meets the hypotheses: its first file includes the second. *)
Fixpoint all_calls (nd : node) : list (string * list node) :=
  match nd with
  | NString _ => []
  | NSeq l => concat (map all_calls l)
  | NPara ls | NPre ls => concat (map (λ l, concat (map all_calls l)) ls)
  | NInvoke fn args _ => (fn, args) :: concat (map all_calls args)
  end.
Lemma concat_in {A B} (f : A → list B) l a x : a ∈ l → x ∈ f a → x ∈ concat (map f l).
Proof. induction 1 as [a l|a b l _ IH]; simpl; intros; apply elem_of_app; auto. Qed.
Lemma all_calls_in nd fn args : calls nd fn args → (fn, args) ∈ all_calls nd.
Proof.
  induction 1 as [|fn args l a fn' args' Ha _ IH|l a fn' args' Ha _ IH|ls l a fn' args' Hl Ha _ IH|ls l a fn' args' Hl Ha _ IH]; simpl.
  - left.
  - right. by eapply concat_in.
  - by eapply concat_in.
  - eapply concat_in; [exact Hl|]. by eapply concat_in.
  - eapply concat_in; [exact Hl|]. by eapply concat_in.
Qed.

Lemma demo_calls p mt nd fn args : demo_fs p = Some (mt, inl nd) → calls nd fn args →
  (p = "/b/index.lit" ∧ (fn, args) ∈ all_calls index_lit) ∨ (p = "/b/sub/ref.lit" ∧ (fn, args) ∈ all_calls ref_lit).
Proof.
  unfold demo_fs. destruct (String.eqb_spec p "/b/index.lit"); [|destruct (String.eqb_spec p "/b/sub/ref.lit"); [|done]].
  all: intros [= <- <-] ?%all_calls_in; auto.
Qed.
Lemma demo_includes p q : includes demo_fs p q → p = "/b/index.lit" ∧ q = "/b/sub/ref.lit".
Proof.
  intros (mt & nd & fn & a & t & Hp & Hc & Hm & Ht & -> & _).
  destruct (demo_calls _ _ _ _ _ Hp Hc) as [[-> Hin]|[-> Hin]]; cbn in Hin.
  - repeat (apply elem_of_cons in Hin as [Hin|Hin]; [injection Hin; intros; subst; try discriminate Hm|]); [|by apply elem_of_nil in Hin].
    split; [done|]. rewrite (Ht "sub/ref.lit") by done. vm_compute. reflexivity.
  - repeat (apply elem_of_cons in Hin as [Hin|Hin]; [injection Hin; intros; subst; try discriminate Hm|]). by apply elem_of_nil in Hin.
Qed.
Example demo_includes_example : includes demo_fs "/b/index.lit" "/b/sub/ref.lit".
Proof.
  eexists 1, index_lit, "include-section", (txt "sub/ref.lit"), "sub/ref.lit". split_and!; try done.
  - eapply calls_seq; [do 4 right; left|]. eapply calls_para; [left|left|]. constructor.
  - by intros s [= <-].
Qed.
Example demo_ends : ∃ n0, ∀ n, n0 ≤ n → snd (load demo_env in_order n "/b/index.lit" [FBase] (St [] [])) ≠ NoFuel.
Proof.
  destruct (load_ends_direct demo_env "/b/index.lit" ["/b/index.lit"; "/b/sub/ref.lit"]) as [n0 H].
  - exact demo_env_base.
  - done.
  - simpl. lia.
  - intros p [[mt r] Hp]. simpl in Hp. unfold demo_fs in Hp. destruct (String.eqb_spec p "/b/index.lit") as [->|]; [left|].
    destruct (String.eqb_spec p "/b/sub/ref.lit") as [->|]; [right; left|done].
  - intros p _ Hc. assert (∀ a b, tc (includes demo_fs) a b → a = "/b/index.lit" ∧ b = "/b/sub/ref.lit") as Ht.
    { induction 1 as [a b Hab|a b c Hab _ [IH _]]; [by apply demo_includes|]. apply demo_includes in Hab as [_ ->]. done. }
    apply Ht in Hc as [-> Hc]. done.
  - intros p mt nd fn a rest _ Hp Hc Hm.
    destruct (demo_calls _ _ _ _ _ Hp Hc) as [[-> Hin]|[-> Hin]]; cbn in Hin.
    all: repeat (apply elem_of_cons in Hin as [Hin|Hin]; [injection Hin; intros; subst; first [discriminate Hm|reflexivity]|]); by apply elem_of_nil in Hin.
  - exists n0. intros n Hn. apply H; [done|done|constructor|]. intros i x t c Hx. done.
Qed.
