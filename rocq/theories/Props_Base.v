(** Theorems about what the functions of the base plugin do: C71. *)
From Coq Require Import Ascii String.
From stdpp Require Import base tactics relations strings list.
From Verif Require Import GoBase Ast Content ContentSpec ContentProofs Section StrProofs TreeSpec TreeProofs TagProofs QueryProofs
  Evaluate EvalProofs EvalFrame EvalInv BaseInv EvalSpec EvalTheory EvalFail EvalOnce EvalText EvalMore EvalLoc BaseSpec BaseRuns
  Props_Evaluate DemoDoc.
Local Open Scope string_scope.
Local Open Scope list_scope.

(** No plugin used before the base plugin has a function of this name. *)
Definition by_base (E : env) (fn : string) (fs : list factory) : Prop :=
  ∃ before after, fs = before ++ FBase :: after ∧ ∀ f, f ∈ before → e_methods E f (method_name fn) = None.

Lemma base_dispatches E fn fs m : base_env E → by_base E fn fs → base_method (method_name fn) = Some m →
  dispatches E (method_name fn) fs m.
Proof.
  intros Hb (before & after & -> & Hn) Hm. induction before as [|f before IH]; simpl.
  - apply dispatches_here. by rewrite Hb.
  - apply dispatches_later; [apply Hn; by left|]. apply IH. intros g Hg. apply Hn. by right.
Qed.

Lemma simple_exists fn : fn ∈ simple_functions → is_Some (base_method (method_name fn)).
Proof.
  intros H. unfold simple_functions in H. simpl in H.
  repeat (apply elem_of_cons in H as [->|H]; [by eexists|]). by apply elem_of_nil in H.
Qed.

Lemma assoc_in {V} k (m : list (string * V)) : is_Some (assoc_get k m) ↔ k ∈ map fst m.
Proof.
  induction m as [|[k' v] m IH]; simpl; [split; [by intros []|by intros ?%elem_of_nil]|].
  rewrite elem_of_cons. destruct (String.eqb_spec k' k) as [->|Hn].
  - split; [by left|eauto].
  - rewrite IH. split; [by right|]. by intros [->|?].
Qed.

Definition functions : list string := simple_functions ++ ["section"; "include-section"].

Lemma functions_methods : map method_name functions ⊆ map fst base_table ∧ map fst base_table ⊆ map method_name functions.
Proof. split; apply (bool_decide_unpack _); vm_compute; exact I. Qed.

(** These functions, and two more, are the functions of the base plugin. *)
Theorem functions_all : ∀ fn, is_Some (base_method (method_name fn)) ↔
  ∃ fn', method_name fn = method_name fn' ∧ (fn' ∈ simple_functions ∨ fn' = "section" ∨ fn' = "include-section").
Proof.
  intros fn. unfold base_method. rewrite assoc_in. destruct functions_methods as [H1 H2]. split.
  - intros H%H2. apply elem_of_list_fmap in H as (fn' & -> & H). exists fn'. split; [done|].
    unfold functions in H. rewrite elem_of_app, !elem_of_cons, elem_of_nil in H. naive_solver.
  - intros (fn' & -> & H). apply H1, elem_of_list_fmap. exists fn'. split; [done|].
    unfold functions. rewrite elem_of_app, !elem_of_cons. naive_solver.
Qed.
Print Assumptions functions_all.

(** An invocation of one of them that is evaluated without error: the arguments
    having been evaluated in order, either it stands for one content and changes
    nothing, or it changes its section and stands for nothing. *)
Theorem functions_do : ∀ E n self acc fn args l s s' r x, base_env E → wf (st_heap s) → st_heap s !! self = Some x →
  fn ∈ simple_functions → by_base E fn (s_factories x) →
  eval E n self acc (NInvoke fn args l) s = (s', Ok r) →
  ∃ m s1 argv x1, base_method (method_name fn) = Some m ∧
    yields_args E self (runs E self) (touch self l s) m 0 args s1 argv ∧ st_heap s1 !! self = Some x1 ∧
    ((∃ c, makes self (s_invloc x1) fn argv c ∧ s' = s1 ∧ r = go_append acc [Some c]) ∨
     (sets E self fn argv s1 s' ∧ r = acc)).
Proof.
  intros E n self acc fn args l s s' r x Hb Hw Hx Hfn Hby H. destruct (simple_exists fn Hfn) as [m Hm].
  assert (valid (st_heap s) self) as Hv by by eapply lookup_lt_Some.
  apply eval_sound in H as (cs & Y & ->).
  destruct (yields_invoke_inv E self _ _ _ _ _ _ x m Y Hx (base_dispatches _ _ _ _ Hb Hby Hm)) as (Ha & s1 & argv & rets & Ya & Hz & [k Hr] & Hret).
  pose proof (touch_frame self l s Hw Hv) as F0. pose proof (ff_wf _ _ _ F0) as Hw0.
  assert (valid (st_heap (touch self l s)) self) as Hv0 by (pose proof (ff_length _ _ _ F0); unfold valid in *; lia).
  pose proof (yields_args_resp E frame _ _ _ _ _ _ _ (frame_eval_rel E) Ya Hw0 Hv0 Hw0 Hv0) as F1. pose proof (ff_wf _ _ _ F1) as Hw1.
  pose proof (ff_length _ _ _ F1).
  destruct (lookup_lt_is_Some_2 (st_heap s1) self) as [x1 Hx1]; [unfold valid in *; lia|].
  pose proof (base_comes E (eval E k) self fn m x1 argv s1 Hw1 Hx1 Hfn Hm (args_suit _ _ _ _ _ _ _ Ya Hz Ha)) as C.
  rewrite Hr in C. simpl in C. exists m, s1, argv, x1. split; [done|]. split; [done|]. split; [done|].
  inversion C as [x2 c rets' Hx2 Hmk Hrets| | |]; subst.
  - left. exists c. assert (x2 = x1) as -> by congruence. split; [done|]. split; [done|].
    destruct Hrets as [->| ->]; inversion Hret; subst; done.
  - right. split; [done|]. destruct H1 as [->| ->]; inversion Hret; subst; done.
  - destruct H1 as [->| ->]; inversion Hret.
  - naive_solver.
Qed.
Print Assumptions functions_do.

(** Conversely, once the arguments have been evaluated, to something, evaluation
    goes on to that content or change, or fails with the error the function is
    bound to give; except that a title that has neither tags nor a text fails in
    some other way. *)
Theorem functions_end : ∀ E self fn args l s x f m s1 argv, base_env E → wf (st_heap s) → st_heap s !! self = Some x →
  file_path (st_heap s) self = Some f → fn ∈ simple_functions → by_base E fn (s_factories x) →
  base_method (method_name fn) = Some m → accepts m (length args) →
  yields_args E self (runs E self) (touch self l s) m 0 args s1 argv → ACon None ∉ argv →
  ∃ n x1, st_heap s1 !! self = Some x1 ∧
    ((∃ c, makes self (s_invloc x1) fn argv c ∧
      ∀ k acc, n ≤ k → eval E k self acc (NInvoke fn args l) s = (s1, Ok (go_append acc [Some c]))) ∨
     (∃ s', sets E self fn argv s1 s' ∧ ∀ k acc, n ≤ k → eval E k self acc (NInvoke fn args l) s = (s', Ok acc)) ∨
     (∃ e, rejects E self fn argv s1 e ∧ ∀ k acc, n ≤ k → eval E k self acc (NInvoke fn args l) s =
       (s1, Err (if is_pretty e then e else EFailed fn e (ErrLoc f l (S (String.length fn)))))) ∨
     (∃ title, fn = "title" ∧ argv = [con title] ∧ ¬ ∃ t text, strip_aux title = Some t ∧ str E (st_heap s1) t = Ok text)).
Proof.
  intros E self fn args l s x f m s1 argv Hb Hw Hx Hf Hfn Hby Hm Ha Ya Hz.
  assert (valid (st_heap s) self) as Hv by by eapply lookup_lt_Some.
  pose proof (touch_frame self l s Hw Hv) as F0. pose proof (ff_wf _ _ _ F0) as Hw0.
  assert (valid (st_heap (touch self l s)) self) as Hv0 by (pose proof (ff_length _ _ _ F0); unfold valid in *; lia).
  pose proof (yields_args_resp E frame _ _ _ _ _ _ _ (frame_eval_rel E) Ya Hw0 Hv0 Hw0 Hv0) as F1. pose proof (ff_wf _ _ _ F1) as Hw1.
  pose proof (ff_length _ _ _ F1).
  destruct (lookup_lt_is_Some_2 (st_heap s1) self) as [x1 Hx1]; [unfold valid in *; lia|].
  pose proof (base_dispatches _ _ _ _ Hb Hby Hm) as Hd.
  pose proof (base_comes E (eval E 0) self fn m x1 argv s1 Hw1 Hx1 Hfn Hm (args_suit _ _ _ _ _ _ _ Ya Hz Ha)) as C.
  destruct (run_prog E (eval E 0) self (m_body m self argv) s1) as [s' o] eqn:Hr. simpl in C.
  assert (∀ rets cs, o = Ok rets → returns rets cs → ∃ n, ∀ k acc, n ≤ k →
    eval E k self acc (NInvoke fn args l) s = (s', Ok (fold_append acc cs))) as Hgo.
  { intros rets cs -> Hret. assert (yields E self (runs E self) s (NInvoke fn args l) s' cs) as Y.
    { eapply yields_invoke; try done. by exists 0. }
    destruct (proj1 (yields_complete E self) _ _ _ _ Y Hw Hv) as [n Hn]. exists n. intros k acc Hk.
    eapply mle_ok; [|apply Hn]. by apply eval_mono. }
  inversion C as [x2 c rets Hx2 Hmk Hrets|s2 rets Hset Hrets|e rets Hrej Hrets|title s2 o2 Hfn' Hargv Hno]; subst.
  - assert (x2 = x1) as -> by congruence.
    destruct (Hgo rets [c] eq_refl) as [n Hn]; [destruct Hrets as [->| ->]; constructor|].
    exists n, x1. split; [done|]. left. exists c. split; [done|]. exact Hn.
  - destruct (Hgo rets [] eq_refl) as [n Hn]; [destruct Hrets as [->| ->]; constructor|].
    exists n, x1. split; [done|]. right. left. exists s'. split; [done|]. exact Hn.
  - destruct (returned_errors_surface E self fn args l s x f m s' argv s' rets e Hw Hv Hx Hf Hd Ha Ya Hz) as [n Hn].
    { by exists 0. }
    { destruct Hrets as [->| ->]; eauto. }
    exists n, x1. split; [done|]. right. right. left. exists e. split; [done|]. intros k acc Hk. by apply Hn.
  - exists 0, x1. split; [done|]. right. right. right. eauto.
Qed.
Print Assumptions functions_end.

(** All three happen; each function can be used. *)
Definition begin : st := St [set_factories (new_section None "/f") [FBase]] [].

Example functions_example :
  by_base demo_env "target" [FBase] ∧ base_env demo_env ∧
  makes 0 loc0 "target" [AStr "a"; con (CString "b")] (CTarget "a" loc0 (Some (CString "b")) None) ∧
  snd (eval demo_env 9 0 None (call 1 "target" [txt "a"; txt "b"]) begin) =
    Ok (Some (CTarget "a" (Loc 1 1 10) (Some (CString "b")) None)) ∧
  snd (eval demo_env 9 0 None (call 1 "target" [txt "a"]) begin) =
    Ok (Some (CTarget "a" (Loc 1 1 10) (Some (CString "a")) None)) ∧
  (∃ s' x', eval demo_env 9 0 (Some (CString "so far")) (call 1 "set-partial" [txt "a"; txt "b"]) begin = (s', Ok (Some (CString "so far"))) ∧
    st_heap s' !! 0 = Some x' ∧ partial "a" x' = Some (CString "b") ∧ sets demo_env 0 "set-partial" [AStr "a"; con (CString "b")]
      (touch 0 (Loc 1 1 10) begin) s') ∧
  rejects demo_env 0 "table" [con (CString "a")] begin (ETableRow (CString "a")) ∧
  snd (eval demo_env 9 0 None (call 1 "table" [txt "a"]) begin) =
    Err (EFailed "table" (ETableRow (CString "a")) (ErrLoc "/f" (Loc 1 1 10) 6)).
Proof.
  split; [exists [], []; split; [done|]; by intros f ?%elem_of_nil|]. split; [done|]. split; [constructor|].
  split; [vm_compute; reflexivity|]. split; [vm_compute; reflexivity|]. split.
  { eexists _, _. split; [vm_compute; reflexivity|]. split; [reflexivity|]. split; [reflexivity|].
    constructor. eexists _, _. split; [reflexivity|]. split; [reflexivity|]. split; [done|]. split; [fields|].
    split; [done|]. intros n Hn. 
    change (match (if String.eqb "a" n then Some (Some (CString "b")) else None) with Some c => c | None => None end = None).
    by rewrite (proj2 (String.eqb_neq "a" n)). }
  split; [apply (rejects_row _ _ [] (CString "a") []); [done|by intros]|]. vm_compute. reflexivity.
Qed.
