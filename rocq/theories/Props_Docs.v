(** Theorems about the documentation's plugins: C81. *)
From Coq Require Import Ascii String NArith Lia.
From stdpp Require Import base tactics relations strings list.
From Verif Require Import GoBase Ast Content ContentSpec ContentProofs Section StrProofs TreeSpec TreeProofs TagProofs QueryProofs
  Evaluate EvalProofs EvalFrame EvalInv BaseInv EvalSpec EvalTheory EvalFail EvalOnce EvalText EvalMore EvalLoc BaseSpec BaseRuns
  Chroma Docs DocsSpec DocsProofs Props_Evaluate Props_Base DemoDoc.
Local Open Scope string_scope. Local Open Scope list_scope.

(** The plugins used before this one have no function of this name, and this one has the functions of [table]. *)
Definition by_plugin (E : env) (table : string → option method) (fn : string) (fs : list factory) : Prop :=
  ∃ before p after, fs = before ++ p :: after ∧ (∀ f, f ∈ before → e_methods E f (method_name fn) = None) ∧
    ∀ name, e_methods E p name = table name.

Lemma plugin_dispatches E table fn fs m : by_plugin E table fn fs → table (method_name fn) = Some m → dispatches E (method_name fn) fs m.
Proof.
  intros (before & p & after & -> & Hn & Hp) Hm. induction before as [|f before IH]; simpl.
  - apply dispatches_here. by rewrite Hp.
  - apply dispatches_later; [apply Hn; by left|]. apply IH. intros g Hg. apply Hn. by right.
Qed.

(** How an invocation goes on. *)
Definition surfaces (o : ending) (fn f : string) (l : loc) (acc : option content) (s : st) : st * outcome error (option content) :=
  match o with
  | Gives c => (s, Ok (go_append acc [Some c]))
  | Fails e => (s, Err (if is_pretty e then e else EFailed fn e (ErrLoc f l (S (String.length fn)))))
  | Crashes => (s, Panic)
  end.

Lemma ends_surface E self fn args l s x f m s1 argv o : wf (st_heap s) → st_heap s !! self = Some x → file_path (st_heap s) self = Some f →
  dispatches E (method_name fn) (s_factories x) m → accepts m (length args) →
  yields_args E self (runs E self) (touch self l s) m 0 args s1 argv → ACon None ∉ argv →
  (∀ rec, ends o s1 (run_prog E rec self (m_body m self argv) s1)) →
  ∃ n, ∀ k acc, n ≤ k → eval E k self acc (NInvoke fn args l) s = surfaces o fn f l acc s1.
Proof.
  intros Hw Hx Hf Hd Ha Ya Hz He. assert (valid (st_heap s) self) as Hv by by eapply lookup_lt_Some. destruct o as [c|e|].
  - destruct (He (eval E 0)) as (rets & Hrets & Hr).
    assert (yields E self (runs E self) s (NInvoke fn args l) s1 [c]) as Y.
    { eapply yields_invoke; try done; [by exists 0|]. destruct Hrets as [->| ->]; constructor. }
    destruct (proj1 (yields_complete E self) _ _ _ _ Y Hw Hv) as [n Hn]. exists n. intros k acc Hk.
    eapply mle_ok; [|apply Hn]. by apply eval_mono.
  - destruct (returned_errors_surface E self fn args l s x f m s1 argv s1 [RCon None; RErr (Some e)] e Hw Hv Hx Hf Hd Ha Ya Hz) as [n Hn];
      [by exists 0; apply He|eauto|]. by exists n.
  - destruct (touch_valid self l s Hw Hv) as [Hw1 Hv1].
    pose proof (proj2 (proj2 (proj2 (proj2 (yields_complete E self)))) _ _ _ _ _ _ Ya Hw1 Hv1) as [n Hn].
    assert (∀ k acc, S n ≤ k → eval E k self acc (NInvoke fn args l) s = (s1, Panic)) as H; [|exists (S n); exact H].
    intros k acc Hk. destruct k as [|k]; [lia|]. simpl.
    destruct (invoke_start E self k acc fn args l s x m Hw Hv Hx Hd) as (f' & Hf' & ->).
    apply accepts_ok in Ha. rewrite Ha.
    erewrite mbind_eq. 2: { eapply mle_ok; [|exact Hn]. apply mle_map. intros. apply mle_convert, eval_mono. lia. }
    apply not_zero in Hz. rewrite Hz. specialize (He (eval E k)). cbn [ends] in He. unfold mbind. by rewrite He.
Qed.

Lemma args_keep E self m l args s x s1 argv : wf (st_heap s) → st_heap s !! self = Some x →
  yields_args E self (runs E self) (touch self l s) m 0 args s1 argv → ∃ x1, st_heap s1 !! self = Some x1.
Proof.
  intros Hw Hx Ya. assert (valid (st_heap s) self) as Hv by by eapply lookup_lt_Some.
  pose proof (touch_frame self l s Hw Hv) as F0. pose proof (ff_wf _ _ _ F0) as Hw0.
  assert (valid (st_heap (touch self l s)) self) as Hv0 by (pose proof (ff_length _ _ _ F0); unfold valid in *; lia).
  pose proof (yields_args_resp E frame _ _ _ _ _ _ _ (frame_eval_rel E) Ya Hw0 Hv0 Hw0 Hv0) as F1.
  pose proof (ff_length _ _ _ F1). destruct (lookup_lt_is_Some_2 (st_heap s1) self) as [x1 Hx1]; [unfold valid in *; lia|]. eauto.
Qed.

(** The plugin of the documentation has these functions, and the others one each. *)
Theorem docs_all : ∀ similar broken jumps hl show fn,
  (is_Some (docs_method similar broken jumps hl show (method_name fn)) ↔
    ∃ fn', method_name fn = method_name fn' ∧
      fn' ∈ ["output-frame"; "syntax-hl"; "column-header"; "columns"; "lit-syntax"; "godoc"; "template-link"; "define"; "describe-fruit"]) ∧
  (is_Some (chroma_method similar broken jumps hl (method_name fn)) ↔ method_name fn = method_name "syntax") ∧
  (is_Some (hello_method (method_name fn)) ↔ method_name fn = method_name "quote").
Proof.
  intros similar broken jumps hl show fn. unfold docs_method, chroma_method, hello_method. rewrite !assoc_in. cbn [docs_table chroma_table hello_table map fst].
  split; [|split; by rewrite elem_of_list_singleton].
  change (method_name fn ∈ map method_name docs_functions ↔ ∃ fn', method_name fn = method_name fn' ∧ fn' ∈ docs_functions).
  by rewrite elem_of_list_fmap.
Qed.
Print Assumptions docs_all.

(** What is said of them (DocsSpec.v) leaves nothing open. *)
Theorem docs_determined : ∀ text hl show self l fn argv o o',
  (docs text hl show self l fn argv o → docs text hl show self l fn argv o' → o = o') ∧
  (DocsSpec.syntax text hl argv o → DocsSpec.syntax text hl argv o' → o = o').
Proof. intros. split; [apply docs_det|apply syntax_det]. Qed.
Print Assumptions docs_determined.

(** Once the arguments have been evaluated, to something, an invocation of one of these
    functions goes on as is said: it stands for a content, fails, or crashes. It changes nothing. *)
Theorem docs_end : ∀ E hl show self fn args l s x f m s1 argv, 0 < e_jumps E → wf (st_heap s) → st_heap s !! self = Some x →
  file_path (st_heap s) self = Some f → fn ∈ docs_functions →
  by_plugin E (docs_method (e_similar E) (e_broken E) (e_jumps E) hl show) fn (s_factories x) →
  docs_method (e_similar E) (e_broken E) (e_jumps E) hl show (method_name fn) = Some m → accepts m (length args) →
  yields_args E self (runs E self) (touch self l s) m 0 args s1 argv → ACon None ∉ argv →
  ∃ n x1 o, st_heap s1 !! self = Some x1 ∧ docs (str E (st_heap s1)) hl show self (s_invloc x1) fn argv o ∧
    ∀ k acc, n ≤ k → eval E k self acc (NInvoke fn args l) s = surfaces o fn f l acc s1.
Proof.
  intros E hl show self fn args l s x f m s1 argv Hj Hw Hx Hf Hfn Hby Hm Ha Ya Hz.
  destruct (args_keep _ _ _ _ _ _ _ _ _ Hw Hx Ya) as [x1 Hx1].
  assert (∀ rec, ∃ o, docs (str E (st_heap s1)) hl show self (s_invloc x1) fn argv o ∧ ends o s1 (run_prog E rec self (m_body m self argv) s1)) as C.
  { intros rec. apply docs_comes; try done. by apply (args_suit _ _ _ _ _ _ _ Ya Hz Ha). }
  destruct (C (eval E 0)) as (o & Ho & _).
  destruct (ends_surface E self fn args l s x f m s1 argv o Hw Hx Hf (plugin_dispatches _ _ _ _ _ Hby Hm) Ha Ya Hz) as [n Hn].
  { intros rec. destruct (C rec) as (o' & Ho' & He). by rewrite (docs_det _ _ _ _ _ _ _ _ _ Ho Ho'). }
  by exists n, x1, o.
Qed.
Print Assumptions docs_end.

(** An invocation that is evaluated without error, so to something that is said. *)
Theorem docs_do : ∀ E hl show n self acc fn args l s s' r x, 0 < e_jumps E → wf (st_heap s) → st_heap s !! self = Some x →
  fn ∈ docs_functions → by_plugin E (docs_method (e_similar E) (e_broken E) (e_jumps E) hl show) fn (s_factories x) →
  eval E n self acc (NInvoke fn args l) s = (s', Ok r) →
  ∃ m argv x1 c, docs_method (e_similar E) (e_broken E) (e_jumps E) hl show (method_name fn) = Some m ∧
    yields_args E self (runs E self) (touch self l s) m 0 args s' argv ∧ st_heap s' !! self = Some x1 ∧
    docs (str E (st_heap s')) hl show self (s_invloc x1) fn argv (Gives c) ∧ r = go_append acc [Some c].
Proof.
  intros E hl show n self acc fn args l s s' r x Hj Hw Hx Hfn Hby H.
  assert (valid (st_heap s) self) as Hv by by eapply lookup_lt_Some.
  assert (is_Some (docs_method (e_similar E) (e_broken E) (e_jumps E) hl show (method_name fn))) as [m Hm] by (apply docs_all; eauto).
  pose proof H as He. apply eval_sound in H as (cs & Y & Hcs).
  destruct (yields_invoke_inv E self _ _ _ _ _ _ x m Y Hx (plugin_dispatches _ _ _ _ _ Hby Hm)) as (Ha & s1 & argv & rets & Ya & Hz & [k Hr] & Hret).
  destruct (wf_file self _ Hw Hv) as [f Hf].
  destruct (docs_end E hl show self fn args l s x f m s1 argv Hj Hw Hx Hf Hfn Hby Hm Ha Ya Hz) as (n1 & x1 & o & Hx1 & Ho & Hn).
  specialize (Hn (n `max` n1) acc (Nat.le_max_r _ _)). rewrite (eval_mono E n (n `max` n1) (Nat.le_max_l _ _) self acc _ s) in Hn by by rewrite He.
  rewrite He in Hn. destruct o as [c|e|]; cbn [surfaces] in Hn; try done. injection Hn as -> ->. exists m, argv, x1, c. done.
Qed.
Print Assumptions docs_do.

(** The same for the function of the chroma plugin. *)
Theorem syntax_end : ∀ E hl self args l s x f m s1 argv, wf (st_heap s) → st_heap s !! self = Some x →
  file_path (st_heap s) self = Some f →
  by_plugin E (chroma_method (e_similar E) (e_broken E) (e_jumps E) hl) "syntax" (s_factories x) →
  chroma_method (e_similar E) (e_broken E) (e_jumps E) hl (method_name "syntax") = Some m → accepts m (length args) →
  yields_args E self (runs E self) (touch self l s) m 0 args s1 argv → ACon None ∉ argv →
  ∃ n o, DocsSpec.syntax (str E (st_heap s1)) hl argv o ∧
    ∀ k acc, n ≤ k → eval E k self acc (NInvoke "syntax" args l) s = surfaces o "syntax" f l acc s1.
Proof.
  intros E hl self args l s x f m s1 argv Hw Hx Hf Hby Hm Ha Ya Hz.
  destruct (args_keep _ _ _ _ _ _ _ _ _ Hw Hx Ya) as [x1 Hx1].
  assert (∀ rec, ∃ o, DocsSpec.syntax (str E (st_heap s1)) hl argv o ∧ ends o s1 (run_prog E rec self (m_body m self argv) s1)) as C.
  { intros rec. eapply syntax_comes; try done. by apply (args_suit _ _ _ _ _ _ _ Ya Hz Ha). }
  destruct (C (eval E 0)) as (o & Ho & _).
  destruct (ends_surface E self "syntax" args l s x f m s1 argv o Hw Hx Hf (plugin_dispatches _ _ _ _ _ Hby Hm) Ha Ya Hz) as [n Hn].
  { intros rec. destruct (C rec) as (o' & Ho' & He). by rewrite (syntax_det _ _ _ _ _ Ho Ho'). }
  by exists n, o.
Qed.
Print Assumptions syntax_end.

(** And of the example's: a quotation and who it is from. *)
Theorem quote_end : ∀ E self args l s x f m s1 argv, wf (st_heap s) → st_heap s !! self = Some x →
  file_path (st_heap s) self = Some f → by_plugin E hello_method "quote" (s_factories x) →
  hello_method (method_name "quote") = Some m → accepts m (length args) →
  yields_args E self (runs E self) (touch self l s) m 0 args s1 argv → ACon None ∉ argv →
  ∃ n quote source, argv = [con quote; con source] ∧
    ∀ k acc, n ≤ k → eval E k self acc (NInvoke "quote" args l) s =
      (s1, Ok (go_append acc [Some (CStyled "quote" false quote [("Source", Some source)])])).
Proof.
  intros E self args l s x f m s1 argv Hw Hx Hf Hby Hm Ha Ya Hz.
  pose proof (args_suit _ _ _ _ _ _ _ Ya Hz Ha) as Hs. pose proof Hm as Hm'.
  assert (m = m_quote) as Em by (change (Some m_quote = Some m) in Hm; congruence).
  assert (∃ q r, argv = [con q; con r]) as (q & r & ->).
  { rewrite Em in Hs. apply suits_2 in Hs as (v & w & -> & [q ->] & [r ->]). eauto. }
  destruct (ends_surface E self "quote" args l s x f m s1 _ (Gives (CStyled "quote" false q [("Source", Some r)])) Hw Hx Hf
    (plugin_dispatches _ _ _ _ _ Hby Hm') Ha Ya Hz) as [n Hn].
  { intros rec. rewrite Em. eexists. split; [by left|done]. }
  by exists n, q, r.
Qed.
Print Assumptions quote_end.

(** ** Examples *)

(** A highlighter that changes nothing and knows but one language. *)
Definition demo_hl (language : string) (style : option string) (flow : bool) (code : string) : string + error :=
  if String.eqb language "lit" then inl code else inr (EPlugin "no such language").
Definition docs_env : env := Env demo_fs (λ _, None)
  (λ f name, match f with
     | FBase => base_method name
     | FExt 0 => docs_method (λ _ _, false) false 10 demo_hl (λ _, "?") name
     | FExt 1 => chroma_method (λ _ _, false) false 10 demo_hl name
     | FExt _ => hello_method name
     end) (λ _ _, false) false 10.
Definition docs_begin : st := St [set_factories (new_section None "/f") [FBase; FExt 2; FExt 1; FExt 0]] [].
Definition seq (l : list node) : node := NSeq l.

Lemma docs_by fn : fn ∈ docs_functions →
  by_plugin docs_env (docs_method (e_similar docs_env) (e_broken docs_env) (e_jumps docs_env) demo_hl (λ _, "?")) fn [FBase; FExt 2; FExt 1; FExt 0].
Proof.
  intros H. exists [FBase; FExt 2; FExt 1], (FExt 0), []. split; [done|]. split; [|done].
  unfold docs_functions in H. repeat (apply elem_of_cons in H as [->|H]); [..|by apply elem_of_nil in H];
    intros f Hf; repeat (apply elem_of_cons in Hf as [->|Hf]; [done|]); by apply elem_of_nil in Hf.
Qed.

(** The hypotheses hold of all nine functions here, and functions give contents, errors and panics. *)
Example docs_example :
  (∀ fn, fn ∈ docs_functions → by_plugin docs_env (docs_method (e_similar docs_env) (e_broken docs_env) (e_jumps docs_env) demo_hl (λ _, "?")) fn
     [FBase; FExt 2; FExt 1; FExt 0]) ∧
  snd (eval docs_env 9 0 None (call 1 "lit-syntax" [txt "a \bold{b} \C \--"]) docs_begin) =
    Ok (Some (CStyled "lit-flow" false
      (code "lit" true [raw "a "; links_to 0 "bold"; raw "{b} \C "; links_to 0 "--"]) [])) ∧
  snd (eval docs_env 9 0 None (call 1 "godoc" [txt "**booklit.Section.Tags"]) docs_begin) =
    Ok (Some (CLink (CStyled "verbatim" false (CSeq [CString "**booklit."; CStyled "bold" false (CString "Section.Tags") []]) [])
      "https://pkg.go.dev/github.com/vito/booklit#Section.Tags")) ∧
  snd (eval docs_env 9 0 None (call 1 "define" [seq [call 1 "link" [seq [txt "text"]; seq [txt "url"]]]; txt "Links."]) docs_begin) =
    Ok (Some (CStyled "definition" false (CString "Links.")
      [("Thumb", Some (CSeq [CTarget "link" (Loc 1 1 10) (Some (code "lit" true [raw "\link"])) (Some (CString "Links."));
         code "lit" true [links_to 0 "link"; emphasized "text"; emphasized "url"]]))])) ∧
  snd (eval docs_env 9 0 None (call 1 "describe-fruit" [txt "apple"; txt "Red."; txt "a"; txt "b"]) docs_begin) =
    Ok (Some (CSeq [CTarget "a" (Loc 1 1 10) (Some (CString "apple")) (Some (CString "Red."));
      CTarget "b" (Loc 1 1 10) (Some (CString "apple")) (Some (CString "Red."));
      CPara [CStyled "bold" false (CString "apple") []]; CString "Red."])) ∧
  snd (eval docs_env 9 0 None (call 1 "syntax" [txt "go"; txt "x"]) docs_begin) =
    Err (EFailed "syntax" (EPlugin "no such language") (ErrLoc "/f" (Loc 1 1 10) 7)) ∧
  snd (eval docs_env 9 0 None (call 1 "syntax" [txt "lit"; txt "x"]) docs_begin) = Ok (Some (code "lit" true [raw "x"])) ∧
  snd (eval docs_env 9 0 None (call 1 "quote" [txt "Hi."; txt "Me"]) docs_begin) =
    Ok (Some (CStyled "quote" false (CString "Hi.") [("Source", Some (CString "Me"))])).
Proof. split; [exact docs_by|]. repeat (split; [vm_compute; reflexivity|]). vm_compute. reflexivity. Qed.

Lemma docs_begin_wf : wf (st_heap docs_begin).
Proof.
  split.
  - intros [|i] y p; [|done]. by intros [= <-].
  - intros [|i] y c; [|done]. intros [= <-]. by intros ?%elem_of_nil.
  - intros [|i] y; [|done]. intros [= <-]. constructor.
Qed.

(** The hypotheses of [docs_end]. *)
Lemma godoc_args E self s m ref : 0 < e_jumps E → m_in m = [TStr] → yields_args E self (runs E self) s m 0 [NString ref] s [AStr ref].
Proof.
  intros Hj Hm. eapply args_cons; [left; by rewrite Hm| |constructor]. eapply arg_str; [constructor|done|]. unfold str. by destruct (e_jumps E); [lia|].
Qed.
Example docs_end_example : ∃ m n,
  docs_method (e_similar docs_env) (e_broken docs_env) (e_jumps docs_env) demo_hl (λ _, "?") (method_name "godoc") = Some m ∧
  accepts m 1 ∧ yields_args docs_env 0 (runs docs_env 0) (touch 0 (Loc 1 1 10) docs_begin) m 0 [txt "a.b"] (touch 0 (Loc 1 1 10) docs_begin) [AStr "a.b"] ∧
  ∀ k acc, n ≤ k → eval docs_env k 0 acc (call 1 "godoc" [txt "a.b"]) docs_begin = (touch 0 (Loc 1 1 10) docs_begin,
    Ok (go_append acc [Some (CLink (CStyled "verbatim" false (CSeq [CString "a."; CStyled "bold" false (CString "b") []]) [])
      "https://pkg.go.dev/github.com/vito/a#b")])).
Proof.
  assert (yields_args docs_env 0 (runs docs_env 0) (touch 0 (Loc 1 1 10) docs_begin) m_godoc 0 [txt "a.b"] (touch 0 (Loc 1 1 10) docs_begin) [AStr "a.b"]) as Ya.
  { apply godoc_args; [cbn; lia|done]. }
  destruct (docs_end docs_env demo_hl (λ _, "?") 0 "godoc" [txt "a.b"] (Loc 1 1 10) docs_begin
    (set_factories (new_section None "/f") [FBase; FExt 2; FExt 1; FExt 0]) "/f" m_godoc (touch 0 (Loc 1 1 10) docs_begin) [AStr "a.b"])
    as (n & x1 & o & Hx & D & H); try done.
  - cbn. lia.
  - apply docs_begin_wf.
  - apply (bool_decide_unpack _); vm_compute; exact I.
  - apply docs_by, (bool_decide_unpack _); vm_compute; exact I.
  - rewrite elem_of_list_singleton. done.
  - exists m_godoc, n. split; [done|]. split; [done|]. split; [exact Ya|].
    pose proof (docs_det _ _ _ _ _ _ _ _ _ D (do_godoc _ _ _ 0 (s_invloc x1) "" "a" "b" ltac:(constructor) ltac:(done) ltac:(apply (bool_decide_unpack _); vm_compute; exact I))) as ->.
    exact H.
Qed.

(** The plugin's authors may expect that the functions return an error for what they
    cannot handle. A reference without a dot crashes the program instead. *)
Theorem godoc_crashes : ∀ E hl show self ref l s x, 0 < e_jumps E → wf (st_heap s) → st_heap s !! self = Some x →
  by_plugin E (docs_method (e_similar E) (e_broken E) (e_jumps E) hl show) "godoc" (s_factories x) →
  "."%char ∉ list_ascii_of_string ref →
  ∃ n, ∀ k acc, n ≤ k → eval E k self acc (NInvoke "godoc" [NString ref] l) s = (touch self l s, Panic).
Proof.
  intros E hl show self ref l s x Hj Hw Hx Hby Hr. destruct (wf_file self _ Hw) as [f Hf]; [by eapply lookup_lt_Some|].
  destruct (docs_end E hl show self "godoc" [NString ref] l s x f m_godoc (touch self l s) [AStr ref]) as (n & x1 & o & Hx1 & D & H); try done.
  - apply (bool_decide_unpack _); vm_compute; exact I.
  - by apply godoc_args.
  - rewrite elem_of_list_singleton. done.
  - pose proof (docs_det _ _ _ _ _ _ _ _ _ D (do_godoc_crash _ _ _ _ _ ref Hr)) as ->. by exists n.
Qed.
Print Assumptions godoc_crashes.

(** So do definitions of something that is no invocation, or whose arguments are verbatim
    or preformatted. *)
Theorem docs_no_panic_refuted : ∃ E s nds, wf (st_heap s) ∧
  nds = [call 1 "godoc" [txt "booklit"]; call 1 "define" [seq [txt "link"]; txt "Links."];
         call 1 "define" [seq [call 1 "code" [NPre [[txt "x"]]]]; txt "Code."]] ∧
  Forall (λ nd, snd (eval E 9 0 None nd s) = Panic) nds.
Proof.
  exists docs_env, docs_begin. eexists. split; [apply docs_begin_wf|]. split; [reflexivity|].
  repeat (constructor; [vm_compute; reflexivity|]). constructor.
Qed.
Print Assumptions docs_no_panic_refuted.
