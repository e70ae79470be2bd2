(** A concrete book of two files, used to show that the theorems' hypotheses are
    met by non-trivial documents. *)
From Coq Require Import Ascii String.
From stdpp Require Import base strings list.
From Verif Require Import GoBase Ast Content Section TreeSpec Evaluate EvalSpec Collect CollectSpec BaseInv.
Local Open Scope string_scope.

Definition txt (s : string) : node := NString s.
Definition para (ns : list node) : node := NPara [ns].
Definition call (line : nat) (fn : string) (args : list node) : node := NInvoke fn args (Loc line 1 (10 * line)).

(** index.lit:
<<
\title{The Book}{book}
\split-sections
Welcome to \bold{the book}.
See \target{faq}{Questions} too.

\section{
  \title{Intro}
  Hello, \reference{ref}.
}
\include-section{sub/ref.lit}
>> *)
Definition index_lit : node := NSeq
  [ para [call 1 "title" [txt "The Book"; txt "book"]];
    para [call 2 "split-sections" []];
    NPara [[txt "Welcome to "; call 3 "bold" [txt "the book"]; txt "."];
           [txt "See "; call 4 "target" [txt "faq"; txt "Questions"]; txt " too."]];
    para [call 6 "section" [NSeq [para [call 7 "title" [txt "Intro"]];
                                  para [txt "Hello, "; call 8 "reference" [txt "ref"]; txt "."]]]];
    para [call 10 "include-section" [txt "sub/ref.lit"]] ].

(** sub/ref.lit:
<<
\title{Reference}{ref}
\list{one}{two \target{item}}
>> *)
Definition ref_lit : node := NSeq
  [ para [call 1 "title" [txt "Reference"; txt "ref"]];
    para [call 2 "list" [txt "one"; NSeq [txt "two "; call 2 "target" [txt "item"]]]] ].

Definition demo_fs (p : string) : option (nat * (node + error)) :=
  if String.eqb p "/b/index.lit" then Some (1, inl index_lit)
  else if String.eqb p "/b/sub/ref.lit" then Some (2, inl ref_lit)
  else None.

Definition demo_env : env := Env demo_fs (λ _, None)
  (λ f name, match f with FBase => base_method name | FExt _ => None end) (λ _ _, false) false 10.

Lemma demo_env_base : base_only demo_env.
Proof. split; [done|]. by intros [|n] Hf. Qed.

(** Map entries in order. *)
Definition in_order (k n : nat) : list nat := seq 0 n.

Definition demo_load : st * outcome error nat := load demo_env in_order 10 "/b/index.lit" [FBase] (St [] []).

Lemma demo_loads : snd demo_load = Ok 0.
Proof. vm_compute. reflexivity. Qed.

Lemma demo_tags : map s_tags (st_heap (fst demo_load)) =
  [ [Tag "book" (Some (CString "The Book")) (Some 0) "" None (Loc 1 1 10);
     Tag "faq" (Some (CString "Questions")) (Some 0) "faq" None (Loc 4 1 40)];
    [Tag "intro" (Some (CString "Intro")) (Some 1) "" None (Loc 7 1 70)];
    [Tag "ref" (Some (CString "Reference")) (Some 2) "" None (Loc 1 1 10);
     Tag "item" (Some (CString "item")) (Some 2) "item" None (Loc 2 1 20)] ].
Proof. vm_compute. reflexivity. Qed.

Lemma demo_children : map s_children (st_heap (fst demo_load)) = [[1; 2]; []; []].
Proof. vm_compute. reflexivity. Qed.
