(** What evaluating a syntax tree should produce: relations that follow the shape
    of the tree, independent of the evaluator's accumulator and of its fuel. *)
From Coq Require Import Ascii String.
From stdpp Require Import base strings list.
From Verif Require Import GoBase Ast Content ContentSpec Section Evaluate.

(** The contents of one line as a single content: nothing, the only one, or a
    sequence (whose start is flattened if it is itself a sequence). *)
Definition joined (cs : list content) : option content :=
  match cs with
  | [] => None
  | [c] => Some c
  | c :: r => Some (CSeq (elements (Some c) ++ r))
  end.

(** A paragraph made of the given lines: nothing, a single block, or a
    paragraph. *)
Definition block (lines : list content) : list content :=
  match lines with
  | [] => []
  | [c] => if is_flow c then [CPara [c]] else [c]
  | _ => [CPara lines]
  end.

(** The return values a method may have, and the contents they stand for. *)
Inductive returns : list retval → list content → Prop :=
| returns_nothing : returns [] []
| returns_no_error : returns [RErr None] []
| returns_content c : returns [RCon (Some c)] [c]
| returns_both c : returns [RCon (Some c); RErr None] [c].

(** The type of a method's [i]-th parameter. *)
Definition param (m : method) (i : nat) (ty : argty) : Prop :=
  m_in m !! i = Some ty ∨ (length (m_in m) ≤ i ∧ m_variadic m = Some ty).

(** Acceptable numbers of arguments. *)
Definition accepts (m : method) (given : nat) : Prop :=
  match m_variadic m with
  | None => given = length (m_in m)
  | Some _ => length (m_in m) ≤ given
  end.

(** The method a function name stands for, given the section's plugins in order
    of registration. *)
Inductive dispatches (E : env) (name : string) : list factory → method → Prop :=
| dispatches_here f fs m : e_methods E f name = Some m → dispatches E name (f :: fs) m
| dispatches_later f fs m : e_methods E f name = None → dispatches E name fs m → dispatches E name (f :: fs) m.

Definition touch (self : nat) (l : loc) (s : st) : st :=
  St (upd (st_heap s) self (λ x, set_invloc x l)) (st_cache s).

Section spec.
  Context (E : env) (self : nat).
  (** [body s m argv s' rets]: running the method's body. *)
  Context (body : st → method → list argval → st → list retval → Prop).

  (** [yields s nd s' cs]: evaluating [nd] in state [s] produces the contents
      [cs], in order, and ends in [s']. *)
  Inductive yields : st → node → st → list content → Prop :=
  | yields_string s t : yields s (NString t) s [CString t]
  | yields_seq s l s' cs : yields_all s l s' cs → yields s (NSeq l) s' cs
  | yields_para s lines s' css : yields_lines s lines s' css →
      yields s (NPara lines) s' (block (omap joined css))
  | yields_pre s lines s' css : yields_lines s lines s' css →
      yields s (NPre lines) s' [CPre (omap joined css)]
  | yields_invoke s fn args l x m s1 argv s' rets cs :
      st_heap s !! self = Some x →
      dispatches E (method_name fn) (s_factories x) m →
      accepts m (length args) →
      yields_args (touch self l s) m 0 args s1 argv →
      ACon None ∉ argv →
      body s1 m argv s' rets →
      returns rets cs →
      yields s (NInvoke fn args l) s' cs
  with yields_all : st → list node → st → list content → Prop :=
  | yields_nil s : yields_all s [] s []
  | yields_cons s nd l s1 s2 a b : yields s nd s1 a → yields_all s1 l s2 b → yields_all s (nd :: l) s2 (a ++ b)
  with yields_lines : st → list (list node) → st → list (list content) → Prop :=
  | lines_nil s : yields_lines s [] s []
  | lines_cons s l lines s1 s2 cs css : yields_all s l s1 cs → yields_lines s1 lines s2 css →
      yields_lines s (l :: lines) s2 (cs :: css)
  (** The value passed for an argument, by parameter type. *)
  with yields_arg : st → argty → node → st → argval → Prop :=
  | arg_str s nd s' cs c t : yields s nd s' cs → joined cs = Some c → str E (st_heap s') c = Ok t →
      yields_arg s TStr nd s' (AStr t)
  | arg_con s nd s' cs : yields s nd s' cs → yields_arg s TCon nd s' (ACon (joined cs))
  | arg_node s nd : yields_arg s TNode nd s (ANode nd)
  (** The arguments from the [i]-th on. *)
  with yields_args : st → method → nat → list node → st → list argval → Prop :=
  | args_nil s m i : yields_args s m i [] s []
  | args_cons s m i ty nd args s1 v s2 vs : param m i ty → yields_arg s ty nd s1 v →
      yields_args s1 m (S i) args s2 vs → yields_args s m i (nd :: args) s2 (v :: vs).

  (** Where a method was called from. *)
  Definition call_site (s : st) (fn : string) (l : loc) (f : errloc) : Prop :=
    ∃ file, file_path (st_heap s) self = Some file ∧ f = ErrLoc file l (S (String.length fn)).

  (** The error returned by a method, if any. *)
  Definition returned_error (rets : list retval) (e : error) : Prop :=
    rets = [RErr (Some e)] ∨ ∃ r, rets = [r; RErr (Some e)].

  (** Return values of a method with an unsupported signature. *)
  Inductive bad_signature (fn : string) : list retval → error → Prop :=
  | bad_one t : bad_signature fn [ROther t] (ERetType 0 t)
  | bad_first r : (∀ c, r ≠ RCon c) → bad_signature fn [r; RErr None] (ERetType 1 (ret_ty r))
  | bad_second r r2 : (∀ e, r2 ≠ RErr e) → bad_signature fn [r; r2] (ERetType 2 (ret_ty r2))
  | bad_count rets : 2 < length rets → bad_signature fn rets (ERetCount fn (length rets)).

  (** [fails s nd s' e]: evaluating [nd] in state [s] is aborted by the error [e] in
      state [s'], everything before the failing point having been evaluated and
      nothing after it. *)
  Inductive fails : st → node → st → error → Prop :=
  | fails_seq s l s' e : fails_all s l s' e → fails s (NSeq l) s' e
  | fails_para s lines s' e : fails_lines s lines s' e → fails s (NPara lines) s' e
  | fails_pre s lines s' e : fails_lines s lines s' e → fails s (NPre lines) s' e
  | fails_undefined s fn args l x el :
      st_heap s !! self = Some x →
      (∀ f, f ∈ s_factories x → e_methods E f (method_name fn) = None) →
      call_site s fn l el →
      fails s (NInvoke fn args l) (touch self l s) (EUndefined fn el)
  | fails_arity s fn args l x m :
      st_heap s !! self = Some x →
      dispatches E (method_name fn) (s_factories x) m →
      ¬ accepts m (length args) →
      fails s (NInvoke fn args l) (touch self l s)
        (EArity fn (length args) (length (m_in m)) (if m_variadic m then true else false))
  | fails_arg s fn args l x m s' e :
      st_heap s !! self = Some x →
      dispatches E (method_name fn) (s_factories x) m →
      accepts m (length args) →
      fails_args (touch self l s) m 0 args s' e →
      fails s (NInvoke fn args l) s' e
  | fails_returned s fn args l x m s1 argv s' rets e el :
      st_heap s !! self = Some x →
      dispatches E (method_name fn) (s_factories x) m →
      accepts m (length args) →
      yields_args (touch self l s) m 0 args s1 argv →
      ACon None ∉ argv →
      body s1 m argv s' rets →
      returned_error rets e →
      call_site s fn l el →
      fails s (NInvoke fn args l) s' (if is_pretty e then e else EFailed fn e el)
  | fails_signature s fn args l x m s1 argv s' rets e :
      st_heap s !! self = Some x →
      dispatches E (method_name fn) (s_factories x) m →
      accepts m (length args) →
      yields_args (touch self l s) m 0 args s1 argv →
      ACon None ∉ argv →
      body s1 m argv s' rets →
      bad_signature fn rets e →
      fails s (NInvoke fn args l) s' e
  with fails_all : st → list node → st → error → Prop :=
  | fails_here s nd l s' e : fails s nd s' e → fails_all s (nd :: l) s' e
  | fails_later s nd l s1 cs s' e : yields s nd s1 cs → fails_all s1 l s' e → fails_all s (nd :: l) s' e
  with fails_lines : st → list (list node) → st → error → Prop :=
  | fails_this_line s l lines s' e : fails_all s l s' e → fails_lines s (l :: lines) s' e
  | fails_later_line s l lines s1 cs s' e : yields_all s l s1 cs → fails_lines s1 lines s' e →
      fails_lines s (l :: lines) s' e
  with fails_args : st → method → nat → list node → st → error → Prop :=
  | fails_arg_type s m i nd args name : param m i (TOther name) → fails_args s m i (nd :: args) s (EArgType name)
  | fails_this_arg s m i ty nd args s' e : param m i ty → ty = TStr ∨ ty = TCon → fails s nd s' e →
      fails_args s m i (nd :: args) s' e
  | fails_later_arg s m i ty nd args s1 v s' e : param m i ty → yields_arg s ty nd s1 v →
      fails_args s1 m (S i) args s' e → fails_args s m i (nd :: args) s' e.
End spec.

Scheme yields_ind' := Minimality for yields Sort Prop
  with yields_all_ind' := Minimality for yields_all Sort Prop
  with yields_lines_ind' := Minimality for yields_lines Sort Prop
  with yields_arg_ind' := Minimality for yields_arg Sort Prop
  with yields_args_ind' := Minimality for yields_args Sort Prop.
Combined Scheme yields_mutind from yields_ind', yields_all_ind', yields_lines_ind', yields_arg_ind', yields_args_ind'.

Scheme fails_ind' := Minimality for fails Sort Prop
  with fails_all_ind' := Minimality for fails_all Sort Prop
  with fails_lines_ind' := Minimality for fails_lines Sort Prop
  with fails_args_ind' := Minimality for fails_args Sort Prop.
Combined Scheme fails_mutind from fails_ind', fails_all_ind', fails_lines_ind', fails_args_ind'.

(** Running a body: sections evaluated by it are evaluated by the evaluator. *)
Definition runs (E : env) (self : nat) (s : st) (m : method) (argv : list argval) (s' : st) (rets : list retval) : Prop :=
  ∃ n, run_prog E (eval E n) self (m_body m self argv) s = (s', Ok rets).
