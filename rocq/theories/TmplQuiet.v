(** The errors of executing templates: those of references, if there are any, and
    those of templates. *)
From Coq Require Import Ascii String Lia.
From stdpp Require Import base tactics relations functions strings list.
From Verif Require Import GoBase StrProofs Ast Content Section Render Html TextRender Templates Tmpl TmplEsc TmplExec TmplInd TmplFuel TmplMono.
Local Open Scope string_scope.
Local Open Scope list_scope.

Section errors.
  Context (P : rerr → Prop) (PN : P RNil) (PT : ∀ name, P (RTemplate name)) (PL : P RLazy).
  Definition only {A} (o : outcome rerr A) : Prop := ∀ e, o = Err e → P e.

  Lemma only_ok {A} (x : A) : only (Ok x). Proof. done. Qed.
  Lemma only_nofuel {A} : only (NoFuel : outcome rerr A). Proof. done. Qed.
  Lemma only_fails {A} : only (fails : outcome rerr A). Proof. intros e [= <-]. done. Qed.
  Lemma only_want {A} (o : option A) f : only (want o f).
  Proof. destruct o; [apply only_ok|apply only_fails]. Qed.
  Lemma only_obind {A B} (f : A → outcome rerr B) o : only o → (∀ x, only (f x)) → only (obind f o).
  Proof. intros O F. destruct o as [x|e| |]; simpl; [apply F|intros e' [= <-]; by apply O|done..]. Qed.
  Lemma only_omapM {A B} (f : A → outcome rerr B) l : Forall (λ x, only (f x)) l → only (omapM f l).
  Proof.
    induction 1 as [|c l Hc _ IH]; [done|].
    change (omapM f (c :: l)) with (obind (λ y, obind (λ ys, Ok (y :: ys)) (omapM f l)) (f c)).
    apply only_obind; [done|]. intros y. apply only_obind; [done|]. intros ys. apply only_ok.
  Qed.

  Section exec.
    Context (similar : string → string → bool) (broken : bool) (h : heap) (str : content → outcome error string).
    Context (ext : string) (html : bool) (R : content → rendered) (call : string → val → rendered).
    Context (HR : ∀ c, only (R c)) (Hcall : ∀ n v, only (call n v)).
    (** The errors of references. *)
    Context (HT : ∀ sec name opt l e, ref_tag similar broken h sec name opt l = Err e → P (RTag e)).

    Ltac on := repeat first
      [ apply only_ok | apply only_nofuel | apply only_fails | apply only_want
      | apply only_obind; [|intros ?]
      | by auto
      | match goal with |- only (match ?o with _ => _ end) => destruct o eqn:? end ].

    Lemma text_only c : only (text_val str c).
    Proof. unfold text_val. on. Qed.
    Lemma section_only i s f args : only (section_member h str i s f args).
    Proof. unfold section_member. pose proof text_only. on. Qed.
    Lemma tag_only sec name opt l e : ref_tag similar broken h sec name opt l = Err e → only (Err (RTag e) : got).
    Proof. intros H e' [= <-]. by eapply HT. Qed.
    Lemma display_only sec name rc opt l e : ref_display similar broken h sec name rc opt l = Err e → only (Err (RTag e) : got).
    Proof.
      unfold ref_display. destruct rc; [done|]. destruct (ref_tag _ _ _ _ _ _ _) as [[t|]|e'| |] eqn:Et; try done.
      intros [= ->]. by eapply tag_only.
    Qed.
    Lemma content_only c f args : only (content_member similar broken h str c f args).
    Proof.
      unfold content_member. pose proof text_only. destruct args as [|v args]; [|on].
      destruct (String.eqb f "String"); [on|]. destruct (String.eqb f "IsFlow"); [on|].
      destruct c; try by on.
      destruct (String.eqb f "Section"); [on|]. destruct (String.eqb f "TagName"); [on|].
      destruct (String.eqb f "Content"); [on|]. destruct (String.eqb f "Optional"); [on|].
      destruct (String.eqb f "Tag").
      { destruct (ref_tag _ _ _ _ _ _ _) eqn:E; [on|by eapply tag_only|on|on]. }
      destruct (String.eqb f "Display"); [|on].
      destruct (ref_display _ _ _ _ _ _ _ _) eqn:E; [on|by eapply display_only|on|on].
    Qed.
    Lemma member_only v f args : only (member similar broken h str v f args).
    Proof. unfold member. destruct v; try by on. - apply content_only. - destruct (h !! i); [apply section_only|on]. Qed.
    Lemma members_only fs : ∀ v args, only (members similar broken h str v fs args).
    Proof.
      induction fs as [|f fs IH]; intros v args; cbn [members]; [on|].
      destruct fs as [|g fs]; [apply member_only|]. apply only_obind; [apply member_only|]. intros w. apply IH.
    Qed.
    Lemma func_only f args : only (apply_func h str ext html R f args).
    Proof. unfold apply_func. on. Qed.

    Lemma shortcut_only stop (g : operand → got) l : Forall (λ o, only (g o)) l → ∀ v, only (shortcut stop g v l).
    Proof.
      induction 1 as [|o l Ho _ IH]; intros v; cbn [shortcut]; destruct (Bool.eqb _ _); try apply only_ok.
      apply only_obind; [done|]. intros w. apply IH.
    Qed.
    Lemma command_only e dot (g : operand → got) cmd final : Forall (λ o, only (g o)) cmd →
      only (eval_command similar broken h str ext html R e dot g cmd final).
    Proof.
      intros F. destruct cmd as [|o args]; [apply only_fails|]. apply Forall_cons in F as [Fo F].
      assert (∀ k : list val → got, (∀ vs, only (k vs)) →
        only (obind (λ vs, k (vs ++ match final with Some v => [v] | None => [] end)) (omapM g args))) as G.
      { intros k K. apply only_obind; [by apply only_omapM|]. intros vs. apply K. }
      cbn [eval_command]. cbv zeta. destruct o as [|fs|v [|f fs]|f|s|n|b| |p].
      all: try (destruct args; [|apply only_fails]; destruct final; [apply only_fails|exact Fo]).
      - apply G. intros vs. apply members_only.
      - destruct (assoc_get v e); [|apply only_fails]. apply G. intros vs. apply members_only.
      - destruct (String.eqb f "and" || String.eqb f "or").
        + destruct args as [|a args]; [apply only_fails|]. destruct final; [apply only_fails|].
          apply Forall_cons in F as [Fa F]. apply only_obind; [done|]. intros v. by apply shortcut_only.
        + apply G. intros vs. apply func_only.
      - apply only_fails.
    Qed.
    Lemma pipe_only e dot (g : operand → got) p : Forall (Forall (λ o, only (g o))) p → ∀ final,
      only (eval_pipe similar broken h str ext html R e dot g p final).
    Proof.
      induction 1 as [|cmd p Hc _ IH]; intros final; cbn [eval_pipe]; [on|].
      apply only_obind; [by apply command_only|]. intros v. apply IH.
    Qed.
    Lemma arg_only e dot o : only (eval_arg similar broken h str ext html R e dot o).
    Proof.
      induction o using operand_ind'; cbn [eval_arg]; try apply only_ok.
      - apply members_only.
      - destruct (assoc_get _ _); [apply members_only|apply only_fails].
      - apply func_only.
      - by apply pipe_only.
    Qed.
    Lemma eval_only e dot p : only (eval similar broken h str ext html R e dot p).
    Proof. apply pipe_only. apply Forall_forall. intros c _. apply Forall_forall. intros o _. apply arg_only. Qed.
    Lemma show_only v : only (show str html v).
    Proof. unfold show. on. Qed.
    Lemma put_only x v : only (put str html x v).
    Proof. unfold put. pose proof show_only. on. Qed.

    Lemma list_only (f : list (string * val) → val → node → rendered) dot l :
      Forall (λ x, ∀ e dot, only (f e dot x)) l → ∀ e, only (exec_list similar broken h str ext html R f dot e l).
    Proof.
      induction 1 as [|x l Hx _ IH]; intros e; cbn [exec_list]; [apply only_ok|].
      destruct x; try (apply only_obind; [apply Hx|]; intros s'; apply only_obind; [apply IH|]; intros t'; apply only_ok).
      apply only_obind; [apply eval_only|]. intros y. apply IH.
    Qed.
    Lemma range_only (f : nat → val → rendered) l : (∀ i x, only (f i x)) → ∀ i, only (exec_range f i l).
    Proof.
      intros H. induction l as [|x l IH]; intros i; cbn [exec_range]; [apply only_ok|].
      apply only_obind; [apply H|]. intros s. apply only_obind; [apply IH|]. intros t. apply only_ok.
    Qed.
    Lemma node_only x : ∀ e dot, only (exec_node similar broken h str ext html R call e dot x).
    Proof.
      induction x as [s|x p|v p|p t f IHt IHf|p t f IHt IHf|vs p t f IHt IHf|n p] using node_ind'; intros e dot; cbn [exec_node].
      - apply only_ok.
      - apply only_obind; [apply eval_only|]. intros v. apply put_only.
      - apply only_ok.
      - apply only_obind; [apply eval_only|]. intros v. destruct (truth v); by apply list_only.
      - apply only_obind; [apply eval_only|]. intros v. destruct (truth v); by apply list_only.
      - apply only_obind; [apply eval_only|]. intros v. destruct (items v) as [[|y l]|]; [by apply list_only| |apply only_fails].
        apply range_only. intros i x. by apply list_only.
      - apply only_obind; [destruct p; [apply eval_only|apply only_ok]|]. intros v. apply Hcall.
    Qed.
    Lemma exec_only t v : only (exec similar broken h str ext html R call t v).
    Proof. apply list_only. apply Forall_forall. intros x _. apply node_only. Qed.
  End exec.

  Section run.
    Context (similar : string → string → bool) (broken : bool) (h : heap).
    Context (force : nat → option content) (str : content → outcome error string).
    Context (ext : string) (html : bool) (T : tset (list node)).
    Context (HT : ∀ sec name opt l e, ref_tag similar broken h sec name opt l = Err e → P (RTag e)).
    Notation run := (run similar broken h force str ext html T).

    Lemma run_only k : ∀ t, only (run k t).
    Proof.
      induction k as [|k IH]; intros t; [apply only_nofuel|].
      assert (∀ name v, only (run (S k) (TExec name v))) as X.
      { intros name v. rewrite (run_task similar broken h force str ext html T k (TExec name v)).
        destruct (T name) as [u|]; [|intros e [= <-]; apply PT]. destruct (if html then esc_tree u else Some u); [|apply only_fails].
        apply exec_only; [intros; apply IH..|done]. }
      destruct t as [c|name v]; [|apply X].
      pose proof (run_task similar broken h force str ext html T k (TRender c)) as E.
      destruct c; rewrite E; clear E; try (destruct (template_of h _) as [[name v]|]; [apply X|apply only_fails]).
      - destruct (force _); [apply IH|intros e [= <-]; apply PL].
      - apply IH.
    Qed.
    Lemma run_page_only k i : only (run_page similar broken h force str ext html T k i).
    Proof.
      unfold run_page. destruct (h !! i) as [s|]; [|apply only_fails]. destruct (String.eqb _ _); [apply run_only|].
      pose proof (run_only k) as R. destruct (T _), html; apply R.
    Qed.
  End run.
End errors.

(** With --allow-broken-references no reference fails. *)
Lemma ref_tag_broken similar h sec name opt l e : ref_tag similar true h sec name opt l ≠ Err e.
Proof. unfold ref_tag. by destruct (resolve _ _ _ _ _ _). Qed.
Lemma run_page_broken similar h force str ext html T k i e :
  run_page similar true h force str ext html T k i ≠ Err (RTag e).
Proof.
  intros H. refine (run_page_only (λ e, match e with RTag _ => False | _ => True end) I (λ _, I) I similar true h force str ext html T _ k i (RTag e) H).
  intros sec name opt l e' He. by apply ref_tag_broken in He.
Qed.
