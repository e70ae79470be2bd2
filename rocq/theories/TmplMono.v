(** What executing a template depends on: results of rendering and of other
    templates that are better give a better result. *)
From Coq Require Import Ascii String Lia.
From stdpp Require Import base tactics relations functions strings list.
From Verif Require Import GoBase StrProofs Ast Content Section Render Html TextRender Templates Tmpl TmplEsc TmplExec TmplInd TmplFuel.
Local Open Scope string_scope.
Local Open Scope list_scope.

Section weak.
  (** The errors that may get better. *)
  Context (bad : rerr → Prop).
  Definition weak {A} (a b : outcome rerr A) : Prop := a = NoFuel ∨ (∃ e, a = Err e ∧ bad e) ∨ a = b.

  Lemma weak_refl {A} (a : outcome rerr A) : weak a a.
  Proof. by right; right. Qed.
  Lemma weak_obind {A B} (f f' : A → outcome rerr B) o o' : weak o o' → (∀ x, weak (f x) (f' x)) → weak (obind f o) (obind f' o').
  Proof.
    intros [ -> | [ (e & -> & He) | -> ] ] F; [by left|right; left; by exists e|].
    destruct o'; [apply F|..]; apply weak_refl.
  Qed.
  Lemma weak_omapM_l {A B} (f f' : A → outcome rerr B) l : Forall (λ x, weak (f x) (f' x)) l → weak (omapM f l) (omapM f' l).
  Proof.
    induction 1 as [|c l Hc _ IH]; [apply weak_refl|].
    change (omapM f (c :: l)) with (obind (λ y, obind (λ ys, Ok (y :: ys)) (omapM f l)) (f c)).
    change (omapM f' (c :: l)) with (obind (λ y, obind (λ ys, Ok (y :: ys)) (omapM f' l)) (f' c)).
    apply weak_obind; [done|]. intros y. apply weak_obind; [done|]. intros ys. apply weak_refl.
  Qed.

  Section exec.
    Context (similar : string → string → bool) (broken : bool) (h : heap) (str : content → outcome error string).
    Context (ext : string) (html : bool) (R R' : content → rendered) (call call' : string → val → rendered).
    Context (HR : ∀ c, weak (R c) (R' c)) (Hcall : ∀ n v, weak (call n v) (call' n v)).

    Ltac wk := repeat first
      [ apply weak_refl
      | apply weak_obind; [|intros ?]
      | by auto
      | match goal with |- weak (match ?o with _ => _ end) (match ?o with _ => _ end) => destruct o end ].

    Lemma func_weak f args : weak (apply_func h str ext html R f args) (apply_func h str ext html R' f args).
    Proof. unfold apply_func. wk. Qed.

    Lemma shortcut_weak stop (g g' : operand → got) l : Forall (λ o, weak (g o) (g' o)) l → ∀ v,
      weak (shortcut stop g v l) (shortcut stop g' v l).
    Proof.
      induction 1 as [|o l Ho _ IH]; intros v; cbn [shortcut]; destruct (Bool.eqb _ _); try apply weak_refl.
      apply weak_obind; [done|]. intros w. apply IH.
    Qed.
    Lemma command_weak e dot (g g' : operand → got) cmd final : Forall (λ o, weak (g o) (g' o)) cmd →
      weak (eval_command similar broken h str ext html R e dot g cmd final) (eval_command similar broken h str ext html R' e dot g' cmd final).
    Proof.
      intros F. destruct cmd as [|o args]; [apply weak_refl|]. apply Forall_cons in F as [Fo F].
      assert (∀ k k' : list val → got, (∀ vs, weak (k vs) (k' vs)) →
        weak (obind (λ vs, k (vs ++ match final with Some v => [v] | None => [] end)) (omapM g args))
             (obind (λ vs, k' (vs ++ match final with Some v => [v] | None => [] end)) (omapM g' args))) as G.
      { intros k k' K. apply weak_obind; [by apply weak_omapM_l|]. intros vs. apply K. }
      cbn [eval_command]. cbv zeta. destruct o as [|fs|v [|f fs]|f|s|n|b| |p].
      all: try (destruct args; [|apply weak_refl]; destruct final; [apply weak_refl|exact Fo]).
      - apply G. intros vs. apply weak_refl.
      - destruct (assoc_get v e); [|apply weak_refl]. apply G. intros vs. apply weak_refl.
      - destruct (String.eqb f "and" || String.eqb f "or").
        + destruct args as [|a args]; [apply weak_refl|]. destruct final; [apply weak_refl|].
          apply Forall_cons in F as [Fa F]. apply weak_obind; [done|]. intros v. by apply shortcut_weak.
        + apply G. intros vs. apply func_weak.
      - apply weak_refl.
    Qed.
    Lemma pipe_weak e dot (g g' : operand → got) p : Forall (Forall (λ o, weak (g o) (g' o))) p → ∀ final,
      weak (eval_pipe similar broken h str ext html R e dot g p final) (eval_pipe similar broken h str ext html R' e dot g' p final).
    Proof.
      induction 1 as [|cmd p Hc _ IH]; intros final; cbn [eval_pipe]; [apply weak_refl|].
      apply weak_obind; [by apply command_weak|]. intros v. apply IH.
    Qed.
    Lemma arg_weak e dot o :
      weak (eval_arg similar broken h str ext html R e dot o) (eval_arg similar broken h str ext html R' e dot o).
    Proof.
      induction o using operand_ind'; cbn [eval_arg]; try apply weak_refl.
      by apply pipe_weak.
    Qed.
    Lemma eval_weak e dot p : weak (eval similar broken h str ext html R e dot p) (eval similar broken h str ext html R' e dot p).
    Proof. apply pipe_weak. apply Forall_forall. intros c _. apply Forall_forall. intros o _. apply arg_weak. Qed.

    Lemma list_weak (f f' : list (string * val) → val → node → rendered) dot l :
      Forall (λ x, ∀ e dot, weak (f e dot x) (f' e dot x)) l → ∀ e,
      weak (exec_list similar broken h str ext html R f dot e l) (exec_list similar broken h str ext html R' f' dot e l).
    Proof.
      induction 1 as [|x l Hx _ IH]; intros e; cbn [exec_list]; [apply weak_refl|].
      destruct x; try (apply weak_obind; [apply Hx|]; intros s'; apply weak_obind; [apply IH|]; intros t'; apply weak_refl).
      apply weak_obind; [apply eval_weak|]. intros y. apply IH.
    Qed.
    Lemma range_weak (f f' : nat → val → rendered) l : (∀ i x, weak (f i x) (f' i x)) → ∀ i,
      weak (exec_range f i l) (exec_range f' i l).
    Proof.
      intros H. induction l as [|x l IH]; intros i; cbn [exec_range]; [apply weak_refl|].
      apply weak_obind; [apply H|]. intros s. apply weak_obind; [apply IH|]. intros t. apply weak_refl.
    Qed.
    Lemma node_weak x : ∀ e dot,
      weak (exec_node similar broken h str ext html R call e dot x) (exec_node similar broken h str ext html R' call' e dot x).
    Proof.
      induction x as [s|x p|v p|p t f IHt IHf|p t f IHt IHf|vs p t f IHt IHf|n p] using node_ind'; intros e dot; cbn [exec_node].
      - apply weak_refl.
      - apply weak_obind; [apply eval_weak|]. intros v. apply weak_refl.
      - apply weak_refl.
      - apply weak_obind; [apply eval_weak|]. intros v. destruct (truth v); by apply list_weak.
      - apply weak_obind; [apply eval_weak|]. intros v. destruct (truth v); by apply list_weak.
      - apply weak_obind; [apply eval_weak|]. intros v. destruct (items v) as [[|y l]|]; [by apply list_weak| |apply weak_refl].
        apply range_weak. intros i x. by apply list_weak.
      - apply weak_obind; [destruct p; [apply eval_weak|apply weak_refl]|]. intros v. apply Hcall.
    Qed.
    Lemma exec_weak t v : weak (exec similar broken h str ext html R call t v) (exec similar broken h str ext html R' call' t v).
    Proof. apply list_weak. apply Forall_forall. intros x _. apply node_weak. Qed.
  End exec.
End weak.

Section run.
  Context (similar : string → string → bool) (broken : bool) (h : heap).
  Context (force : nat → option content) (str : content → outcome error string).
  Context (ext : string) (html : bool).
  Notation run T := (run similar broken h force str ext html T).
  Notation run_page T := (run_page similar broken h force str ext html T).

  (** One level, for all tasks. *)
  Lemma run_task T k t :
    match t with
    | TRender (CLazy _ j) => run T (S k) t = match force j with Some x => run T k (TRender x) | None => Err RLazy end
    | TRender (CAux x) => run T (S k) t = run T k (TRender x)
    | TRender c => run T (S k) t = match template_of h c with Some (name, v) => run T (S k) (TExec (name +:+ ".tmpl") v) | None => fails end
    | TExec name v => run T (S k) t =
        match T name with
        | None => Err (RTemplate name)
        | Some t =>
          match (if html then esc_tree t else Some t) with
          | None => fails
          | Some t => exec similar broken h str ext html (λ c, run T k (TRender c)) (λ name v, run T k (TExec name v)) t v
          end
        end
    end.
  Proof. destruct t as [[]|]; reflexivity. Qed.

  (** More depth. *)
  Lemma run_deeper T k : ∀ t, weak (λ _, False) (run T k t) (run T (S k) t).
  Proof.
    induction k as [|k IH]; intros t; [by left|].
    assert (∀ name v, weak (λ _, False) (run T (S k) (TExec name v)) (run T (S (S k)) (TExec name v))) as X.
    { intros name v. rewrite (run_task T k (TExec name v)), (run_task T (S k) (TExec name v)).
      destruct (T name) as [u|]; [|apply weak_refl]. destruct (if html then esc_tree u else Some u); [|apply weak_refl].
      apply exec_weak; intros; apply IH. }
    destruct t as [c|name v]; [|apply X].
    pose proof (run_task T k (TRender c)) as E. pose proof (run_task T (S k) (TRender c)) as E'.
    destruct c; rewrite E, E'; clear E E';
      try (destruct (template_of h _) as [[name v]|]; [apply X|apply weak_refl]).
    - destruct (force _); [apply IH|apply weak_refl].
    - apply IH.
  Qed.
  Lemma run_more T k k' t r : run T k t = r → r ≠ NoFuel → k ≤ k' → run T k' t = r.
  Proof.
    intros E N L. induction L as [|k' _ IH]; [done|].
    destruct (run_deeper T k' t) as [F|[(e & _ & [])|F]]; congruence.
  Qed.

  (** More templates. *)
  Lemma run_templates T T' : (∀ n t, T n = Some t → T' n = Some t) → ∀ k t,
    weak (λ e, ∃ name, e = RTemplate name ∧ T name = None) (run T k t) (run T' k t).
  Proof.
    intros S. induction k as [|k IH]; intros t; [by left|].
    assert (∀ name v, weak (λ e, ∃ name, e = RTemplate name ∧ T name = None) (run T (Datatypes.S k) (TExec name v)) (run T' (Datatypes.S k) (TExec name v))) as X.
    { intros name v. rewrite (run_task T k (TExec name v)), (run_task T' k (TExec name v)).
      destruct (T name) as [u|] eqn:E; [|right; left; eauto]. rewrite (S _ _ E).
      destruct (if html then esc_tree u else Some u); [|apply weak_refl].
      apply exec_weak; intros; apply IH. }
    destruct t as [c|name v]; [|apply X].
    pose proof (run_task T k (TRender c)) as E. pose proof (run_task T' k (TRender c)) as E'.
    destruct c; rewrite E, E'; clear E E';
      try (destruct (template_of h _) as [[name v]|]; [apply X|apply weak_refl]).
    - destruct (force _); [apply IH|apply weak_refl].
    - apply IH.
  Qed.
End run.
