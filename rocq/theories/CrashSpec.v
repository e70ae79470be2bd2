(** Which documents make a load of a book with the base plugin panic. *)
From Coq Require Import Ascii String.
From stdpp Require Import base strings list.
From Verif Require Import GoBase Ast Content ContentSpec Section Evaluate EvalSpec.
Local Open Scope string_scope.
Local Open Scope list_scope.

(** A new section, with its plugins registered. *)
Definition opened (parent : option nat) (path : string) (fs : list factory) (s : st) : st :=
  St (st_heap s ++ [set_factories (new_section parent path) fs]) (st_cache s).

Section spec.
  Context (E : env).

  (** [calls_base s self fn args m]: in this state of the section the invocation calls
      the base plugin's method [m]. *)
  Definition calls_base (s : st) (self : nat) (fn : string) (args : list node) (m : method) : Prop :=
    ∃ x, st_heap s !! self = Some x ∧ FBase ∈ s_factories x ∧ base_method (method_name fn) = Some m ∧ accepts m (length args).

  (** [crashes self s nd]: evaluating [nd] for section [self] in state [s] reaches
      - a call given an argument that stands for no content,
      - a string parameter given an argument that stands for no content, or
      - the title of a section that has no title yet, given without tags, with a
        reference or target that has no contents of its own;
      here, in a nested section, or in an included file. Everything before that point
      is evaluated normally. *)
  Inductive crashes : nat → st → node → Prop :=
  | crash_seq self s l : crashes_all self s l → crashes self s (NSeq l)
  | crash_para self s lines : crashes_lines self s lines → crashes self s (NPara lines)
  | crash_pre self s lines : crashes_lines self s lines → crashes self s (NPre lines)
  | crash_arg self s fn args l m :
      calls_base s self fn args m →
      crashes_args self (touch self l s) m 0 args →
      crashes self s (NInvoke fn args l)
  | crash_nothing self s fn args l m s1 argv :
      calls_base s self fn args m →
      yields_args E self (runs E self) (touch self l s) m 0 args s1 argv →
      ACon None ∈ argv →
      crashes self s (NInvoke fn args l)
  | crash_title self s fn a l m s1 y cs c :
      calls_base s self fn [a] m →
      method_name fn = "Title" →
      yields E self (runs E self) (touch self l s) a s1 cs →
      joined cs = Some c →
      st_heap s1 !! self = Some y → s_title y = CString "" →
      strippable c = false →
      crashes self s (NInvoke fn [a] l)
  | crash_section self s fn nd l m x :
      calls_base s self fn [nd] m →
      method_name fn = "Section" →
      st_heap s !! self = Some x →
      crashes (length (st_heap s)) (opened (Some self) "" (s_factories x) (touch self l s)) nd →
      crashes self s (NInvoke fn [nd] l)
  | crash_include self s fn a l m s1 t f mt nd :
      calls_base s self fn [a] m →
      method_name fn = "IncludeSection" →
      yields_arg E self (runs E self) (touch self l s) TStr a s1 (AStr t) →
      file_path (st_heap s1) self = Some f →
      e_fs E (path_join (path_dir f) t) = Some (mt, inl nd) →
      crashes (length (st_heap s1)) (opened (Some self) (path_join (path_dir f) t) [FBase] s1) nd →
      crashes self s (NInvoke fn [a] l)
  with crashes_all : nat → st → list node → Prop :=
  | crash_here self s nd l : crashes self s nd → crashes_all self s (nd :: l)
  | crash_later self s nd l s1 cs : yields E self (runs E self) s nd s1 cs → crashes_all self s1 l → crashes_all self s (nd :: l)
  with crashes_lines : nat → st → list (list node) → Prop :=
  | crash_line self s l lines : crashes_all self s l → crashes_lines self s (l :: lines)
  | crash_later_line self s l lines s1 cs : yields_all E self (runs E self) s l s1 cs → crashes_lines self s1 lines →
      crashes_lines self s (l :: lines)
  with crashes_args : nat → st → method → nat → list node → Prop :=
  | crash_this_arg self s m i ty nd args : param m i ty → ty = TStr ∨ ty = TCon → crashes self s nd →
      crashes_args self s m i (nd :: args)
  | crash_no_text self s m i nd args s1 cs : param m i TStr → yields E self (runs E self) s nd s1 cs → joined cs = None →
      crashes_args self s m i (nd :: args)
  | crash_later_arg self s m i ty nd args s1 v : param m i ty → yields_arg E self (runs E self) s ty nd s1 v →
      crashes_args self s1 m (S i) args → crashes_args self s m i (nd :: args).
End spec.

Scheme crashes_ind' := Minimality for crashes Sort Prop
  with crashes_all_ind' := Minimality for crashes_all Sort Prop
  with crashes_lines_ind' := Minimality for crashes_lines Sort Prop
  with crashes_args_ind' := Minimality for crashes_args Sort Prop.
Combined Scheme crashes_mutind from crashes_ind', crashes_all_ind', crashes_lines_ind', crashes_args_ind'.
