(** C37: reloading templates. *)
From Coq Require Import Lia ZArith Sorting.Sorted OrderedTypeEx.
From stdpp Require Import base tactics functions strings list.
From Verif Require Import Templates TemplatesProofs.
Local Open Scope string_scope. Local Open Scope list_scope.

Section Props.
  Context {content tree : Type}.
  Variable parse : string → content → option (list (string * tree)).
  Variable empty : tree → bool.
  Variable bundled : tset tree.
  Notation history := (history parse empty bundled).
  Notation defines := (defines parse).

  (** Take any history of loads in which files do not disappear, get a newer time
      when they get a new content, and are touched after a load that failed. After
      a load without error every file was readable and a valid template; *)
  Theorem templates_valid d e : history d true e →
    ∀ f, f ∈ d → ∃ c defs, f_read f = Some c ∧ parse (f_name f) c = Some defs.
  Proof.
    intros H. destruct (history_inv _ _ _ _ _ _ H) as (_ & _ & Ha). by eapply add_files_parse, Ha.
  Qed.

  (** names that no file defines have their bundled template; *)
  Theorem templates_bundled d e n : history d true e →
    (∀ f t, f ∈ d → ¬ defines f n t) → e_tmpl e n = bundled n.
  Proof.
    intros H Hn. destruct (history_inv _ _ _ _ _ _ H) as (_ & _ & Ha).
    by eapply add_files_other; [apply Ha|].
  Qed.

  (** and a name that one file defines has the template from that file, unless it
      is empty and there is a bundled one. *)
  Theorem templates_override d e f n t : history d true e → f ∈ d → defines f n t →
    (∀ c defs, f_read f = Some c → parse (f_name f) c = Some defs → NoDup defs.*1) →
    (∀ g u, g ∈ d → g ≠ f → ¬ defines g n u) →
    e_tmpl e n = Some (if empty t then default t (bundled n) else t).
  Proof.
    intros H Hf Hd Hnd Ho. destruct (history_inv _ _ _ _ _ _ H) as (_ & _ & Ha).
    destruct (history_dir _ _ _ _ _ _ H) as [Hs _].
    by eapply add_files_own; [apply Ha|..]; eauto using is_dir_NoDup.
  Qed.

  (** A file of which the time cannot be found out makes the load fail, and what was
      there stays; *)
  Theorem templates_stat d e f : f ∈ d → f_stat f = None →
    (load parse empty bundled d e).2 = false ∧ e_tmpl (load parse empty bundled d e).1 = e_tmpl e.
  Proof.
    intros Hf Hn. assert (∀ times b, (check d times b).2 = None) as C.
    { clear e. induction d as [|g d IH]; [by apply elem_of_nil in Hf|]. intros times b. cbn [check].
      apply elem_of_cons in Hf as [<-|Hf]; [by rewrite Hn|]. destruct (f_stat g); [by apply IH|done]. }
    unfold load. specialize (C (e_times e) false). destruct (check d (e_times e) false) as [times o]. cbn in C. by subst o.
  Qed.

  (** and so it does, without an error, when no file is newer than noted. *)
  Theorem templates_unchanged d e : NoDup (map f_name d) →
    (∀ f, f ∈ d → ∃ t t', f_stat f = Some t ∧ e_times e (f_name f) = Some t' ∧ (t ≤ t')%Z) →
    (load parse empty bundled d e).2 = true ∧ e_tmpl (load parse empty bundled d e).1 = e_tmpl e.
  Proof.
    intros N H. assert (∀ times, (∀ f, f ∈ d → ∃ t t', f_stat f = Some t ∧ times (f_name f) = Some t' ∧ (t ≤ t')%Z) →
      (check d times false).2 = Some false) as C.
    { clear H e. induction d as [|g d IH]; intros times H; [done|]. cbn [check map] in *. apply NoDup_cons in N as [Ng N].
      destruct (H g) as (t & t' & Ht & Ht' & L); [left|]. rewrite Ht, Ht'.
      assert ((t' <? t)%Z = false) as -> by (apply Z.ltb_ge; lia). cbn [orb]. apply IH; [done|].
      intros f Hf. destruct (H f) as (u & u' & Hu & Hu' & L'); [by right|]. exists u, u'. split; [done|]. split; [|done].
      rewrite fn_lookup_insert_ne; [done|]. intros E. apply Ng. rewrite E. by apply elem_of_list_fmap_1. }
    unfold load. specialize (C _ H). destruct (check d (e_times e) false) as [times o]. cbn in C. by subst o.
  Qed.
End Props.
Print Assumptions templates_stat.
Print Assumptions templates_unchanged.
Print Assumptions templates_valid.
Print Assumptions templates_bundled.
Print Assumptions templates_override.

(** A toy template language: every text is a template of its own name, except that
    "{{" is an error; a blank one is empty. *)
Definition toy (name text : string) : option (list (string * string)) :=
  if String.eqb text "{{" then None else Some [(name, text)].
Definition toy_empty (t : string) : bool := String.eqb t "".
Definition toy_bundled : tset string := λ n, if String.eqb n "link.tmpl" then Some "bundled" else None.
Definition loads (ds : list (dir string)) : list bool * engine string :=
  fold_left (λ acc d, let '(e, ok) := load toy toy_empty toy_bundled d acc.2 in (acc.1 ++ [ok], e))
    ds ([], new_engine toy_bundled).

(** Loaded, failed after a bad change, loaded again after it was corrected. *)
Definition ex_d1 : dir string := [File "link.tmpl" (Some 1%Z) (Some "mine")].
Definition ex_d2 : dir string := [File "bold.tmpl" (Some 4%Z) (Some "b"); File "link.tmpl" (Some 5%Z) (Some "{{")].
Definition ex_d3 : dir string := [File "bold.tmpl" (Some 4%Z) (Some "b"); File "link.tmpl" (Some 6%Z) (Some "yours")].
Example ex_templates : history toy toy_empty toy_bundled ex_d3 true (loads [ex_d1; ex_d2; ex_d3]).2 ∧
  (loads [ex_d1; ex_d2; ex_d3]).1 = [true; false; true] ∧
  e_tmpl (loads [ex_d1; ex_d2; ex_d3]).2 "link.tmpl" = Some "yours" ∧
  e_tmpl (loads [ex_d1; ex_d2; ex_d3]).2 "bold.tmpl" = Some "b".
Proof.
  split; [|by vm_compute].
  eapply (h_load _ _ _ ex_d2 false); [|split_and!; [| |]|intros _|].
  - eapply (h_load _ _ _ ex_d1 true); [|split_and!; [| |]|done|].
    + eapply (h_load _ _ _ [] true); [apply h_new|split_and!; [| |]|done|].
      * repeat constructor.
      * by intros f ->%elem_of_list_singleton.
      * by intros f ?%elem_of_nil.
      * reflexivity.
    + repeat constructor.
    + intros f [->|[->|[]%elem_of_nil]%elem_of_cons]%elem_of_cons; done.
    + intros f ->%elem_of_list_singleton. eexists _, _, _.
      split_and!; [right; left|done|done|done|]. by left.
    + reflexivity.
  - repeat constructor.
  - intros f [->|[->|[]%elem_of_nil]%elem_of_cons]%elem_of_cons; done.
  - intros f [->|[->|[]%elem_of_nil]%elem_of_cons]%elem_of_cons.
    + eexists _, _, _. split_and!; [left|done|done|done|]. by right.
    + eexists _, _, _. split_and!; [right; left|done|done|done|]. by left.
  - exists (File "link.tmpl" (Some 6%Z) (Some "yours")). split; [by right; left|].
    intros f t t' [->|[->|[]%elem_of_nil]%elem_of_cons]%elem_of_cons; [done|]. intros _ [= <-] [= <-]. lia.
  - reflexivity.
Qed.

(** A dangling link appears beside the template; later it is gone. *)
Definition ex_d4 : dir string := [File "bold.tmpl" None None; File "link.tmpl" (Some 1%Z) (Some "mine")].
Example ex_stat : (loads [ex_d1; ex_d4; ex_d1]).1 = [true; false; true] ∧
  e_tmpl (loads [ex_d1; ex_d4]).2 "link.tmpl" = Some "mine" ∧ e_tmpl (loads [ex_d1; ex_d4; ex_d1]).2 "link.tmpl" = Some "mine".
Proof. by vm_compute. Qed.

(** Outside such histories the claim fails. A deleted file stays in use: *)
Theorem templates_deleted_refuted : ∃ d1 d2, is_dir d1 ∧ is_dir d2 ∧
  (∀ f, f ∈ d2 → f_name f ≠ "link.tmpl") ∧
  (loads [d1; d2]).1 = [true; true] ∧ e_tmpl (loads [d1; d2]).2 "link.tmpl" = Some "mine" ∧
  toy_bundled "link.tmpl" = Some "bundled".
Proof.
  exists ex_d1, []. split_and!; try (by vm_compute); [repeat constructor|constructor|by intros ? ?%elem_of_nil].
Qed.
Print Assumptions templates_deleted_refuted.

(** After a load that failed the next one succeeds, although nothing has changed,
    and all templates of the bad file and those after it are missing: *)
Theorem templates_failed_refuted : ∃ d, is_dir d ∧
  (loads [d; d]).1 = [false; true] ∧ e_tmpl (loads [d; d]).2 "link.tmpl" = Some "bundled" ∧
  File "link.tmpl" (Some 1%Z) (Some "mine") ∈ d.
Proof.
  exists [File "bold.tmpl" (Some 1%Z) (Some "{{"); File "link.tmpl" (Some 1%Z) (Some "mine")].
  split_and!; try (by vm_compute); [|by right; left].
  repeat constructor.
Qed.
Print Assumptions templates_failed_refuted.

(** A file replaced by an older one, or changed twice at the same time, is not
    read again: *)
Theorem templates_older_refuted : ∃ d1 d2, is_dir d1 ∧ is_dir d2 ∧
  d2 = [File "link.tmpl" (Some 3%Z) (Some "older")] ∧
  (loads [d1; d2]).1 = [true; true] ∧ e_tmpl (loads [d1; d2]).2 "link.tmpl" = Some "newer".
Proof.
  exists [File "link.tmpl" (Some 4%Z) (Some "newer")], [File "link.tmpl" (Some 3%Z) (Some "older")].
  split_and!; try (by vm_compute); repeat constructor.
Qed.
Print Assumptions templates_older_refuted.

(** And a bundled template cannot be overridden by an empty one. *)
Theorem templates_empty_refuted : ∃ d, is_dir d ∧ d = [File "link.tmpl" (Some 1%Z) (Some "")] ∧
  (loads [d]).1 = [true] ∧ e_tmpl (loads [d]).2 "link.tmpl" = Some "bundled".
Proof.
  eexists. split_and!; [|reflexivity|by vm_compute..]. repeat constructor.
Qed.
Print Assumptions templates_empty_refuted.
