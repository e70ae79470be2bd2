(** The bounds of the lexer and of the parser of templates suffice. *)
From Coq Require Import Ascii String Lia.
From stdpp Require Import base tactics strings list.
From Verif Require Import GoBase StrProofs Html Tmpl.
Local Open Scope string_scope. Local Open Scope list_scope.

Notation len := String.length.

Lemma span_len p s a b : span p s = (a, b) → len a + len b = len s.
Proof.
  revert a b. induction s as [|c s IH]; intros a b; cbn [span]; [by intros [= <- <-]|].
  destruct (p c); [|by intros [= <- <-]]. destruct (span p s) as [x y]. intros [= <- <-].
  specialize (IH _ _ eq_refl). simpl. lia.
Qed.
Lemma span_some p c s a b : span p (String c s) = (a, b) → p c = true → len b ≤ len s.
Proof.
  cbn [span]. intros E H. rewrite H in E. destruct (span p s) as [x y] eqn:F. injection E as <- <-.
  apply span_len in F. lia.
Qed.
Lemma sdrop_le n s : len (sdrop n s) ≤ len s - n.
Proof. revert s. induction n; intros [|c s]; simpl; try lia. apply IHn. Qed.

(** *** Actions *)

Lemma lex_act_fuel n : ∀ m s, len s < n → len s < m → lex_act n s = lex_act m s.
Proof.
  induction n as [|n IH]; intros m s Hn Hm; [lia|]. destruct m as [|m]; [lia|].
  cbn [lex_act]. destruct s as [|c r]; [done|]. cbn [len] in *.
  assert (∀ (t : tok) r', len r' ≤ len r →
    ('(ts, b, r) ← lex_act n r'; Some (t :: ts, b, r)) = ('(ts, b, r) ← lex_act m r'; Some (t :: ts, b, r))) as C.
  { intros t r' H. by rewrite (IH m r') by lia. }
  destruct (has_prefix "}}" _); [done|].
  destruct (is_sp c). { destruct (has_prefix "-}}" r); [done|]. apply C. lia. }
  destruct (Ascii.eqb c """").
  { destruct (span _ r) as [q r'] eqn:E. apply span_len in E. destruct r' as [|c' r'']; [done|]. cbn [len] in E.
    destruct (Ascii.eqb c' """"); [|done]. apply C. lia. }
  destruct (Ascii.eqb c ".").
  { destruct (span is_alnum r) as [[|d w] r'] eqn:E; [apply C; lia|]. apply span_len in E. cbn [len] in E.
    destruct (is_digit d); [done|]. apply C. lia. }
  destruct (Ascii.eqb c "$"). { destruct (span is_alnum r) as [w r'] eqn:E. apply span_len in E. apply C. lia. }
  do 4 (match goal with |- (if ?b then _ else _) = _ => destruct b; [apply C; lia|] end).
  destruct (has_prefix ":=" _). { apply C. pose proof (sdrop_le 2 (String c r)) as L. cbn [len] in L. lia. }
  destruct (is_digit c) eqn:Ed.
  { destruct (span is_digit (String c r)) as [w r'] eqn:E. apply span_some in E; [|done].
    destruct r' as [|d r']; [done|]. destruct (is_alpha d || Ascii.eqb d "."); [done|]. apply C. done. }
  destruct (is_alpha c) eqn:Ea; [|done].
  destruct (span is_alnum (String c r)) as [w r'] eqn:E. apply span_some in E; [|unfold is_alnum; by rewrite Ea].
  apply C. done.
Qed.
Lemma lex_act_len n : ∀ s ts b r, lex_act n s = Some (ts, b, r) → len r < len s.
Proof.
  induction n as [|n IH]; intros s ts b r; [done|].
  cbn [lex_act]. destruct s as [|c s]; [done|]. cbn [len].
  assert (∀ (t : tok) r' ts b r, len r' ≤ len s → ('(ts, b, r) ← lex_act n r'; Some (t :: ts, b, r)) = Some (ts, b, r) → len r < S (len s)) as C.
  { intros t r' ts' b' r0 H E. destruct (lex_act n r') as [[[? ?] ?]|] eqn:F; [|done]. cbn [base.mbind option_bind] in E.
    injection E as <- <- <-. apply IH in F. lia. }
  destruct (has_prefix "}}" _). { intros [= <- <- <-]. eapply Nat.le_lt_trans; [apply (sdrop_le 2 (String c s))|cbn [len]; lia]. }
  destruct (is_sp c).
  { destruct (has_prefix "-}}" s); [|apply C; lia]. intros [= <- <- <-].
    eapply Nat.le_lt_trans; [apply (sdrop_le 3 s)|lia]. }
  destruct (Ascii.eqb c """").
  { destruct (span _ s) as [q r'] eqn:E. apply span_len in E. destruct r' as [|c' r'']; [done|]. cbn [len] in E.
    destruct (Ascii.eqb c' """"); [|done]. apply C. lia. }
  destruct (Ascii.eqb c ".").
  { destruct (span is_alnum s) as [[|d w] r'] eqn:E; [apply C; lia|]. apply span_len in E. cbn [len] in E.
    destruct (is_digit d); [done|]. apply C. lia. }
  destruct (Ascii.eqb c "$"). { destruct (span is_alnum s) as [w r'] eqn:E. apply span_len in E. apply C. lia. }
  do 4 (match goal with |- (if ?b then _ else _) = _ → _ => destruct b; [apply C; lia|] end).
  destruct (has_prefix ":=" _). { apply C. pose proof (sdrop_le 2 (String c s)) as L. cbn [len] in L. lia. }
  destruct (is_digit c) eqn:Ed.
  { destruct (span is_digit (String c s)) as [w r'] eqn:E. apply span_some in E; [|done].
    destruct r' as [|d r']; [done|]. destruct (is_alpha d || Ascii.eqb d "."); [done|]. apply C. done. }
  destruct (is_alpha c) eqn:Ea; [|done].
  destruct (span is_alnum (String c s)) as [w r'] eqn:E. apply span_some in E; [|unfold is_alnum; by rewrite Ea].
  apply C. done.
Qed.

(** *** The whole text *)

Lemma split_open_len s a r : split_open s = (a, Some r) → len r < len s.
Proof.
  revert a r. induction s as [|c s IH]; intros a r; cbn [split_open]; [done|].
  destruct (has_prefix "{{" _).
  - intros [= <- <-]. eapply Nat.le_lt_trans; [apply (sdrop_le 2 (String c s))|cbn [len]; lia].
  - destruct (split_open s) as [x o]. intros [= <- ->]. specialize (IH _ _ eq_refl). cbn [len]. lia.
Qed.
Lemma lex_fuel n : ∀ m b s, len s < n → len s < m → lex n b s = lex m b s.
Proof.
  induction n as [|n IH]; intros m b s Hn Hm; [lia|]. destruct m as [|m]; [lia|].
  cbn [lex]. destruct (split_open s) as [t [r|]] eqn:E; [|done]. apply split_open_len in E. cbv zeta.
  match goal with |- context [lex_act ?k ?x] => destruct (lex_act k x) as [[[ts b'] r']|] eqn:F end; [|done].
  cbn [base.mbind option_bind]. apply lex_act_len in F.
  assert (len r' ≤ len r) as L.
  { match type of F with context [if ?b then _ else _] => destruct b end; [|lia]. pose proof (sdrop_le 1 r). lia. }
  rewrite (IH m b' r') by lia. done.
Qed.
(** Another bound for an action would not give another result either. *)
Lemma lex_act_bound n s x : len s ≤ len x → len x < n → lex_act n s = lex_act (S (len x)) s.
Proof. intros. apply lex_act_fuel; lia. Qed.

(** *** Pipelines *)

Lemma take_fields_len ts fs r : take_fields ts = (fs, r) → length r ≤ length ts ∧
  (match ts with KField _ :: _ => length r < length ts | _ => True end).
Proof.
  revert fs r. induction ts as [|t ts IH]; intros fs r; cbn [take_fields]; [by intros [= <- <-]|].
  destruct t; try by intros [= <- <-].
  destruct (take_fields ts) as [x y]. intros [= <- <-]. destruct (IH _ _ eq_refl) as [? _]. simpl. lia.
Qed.
Lemma p_pipe_len n : ∀ cmds cmd ts p r, p_pipe n cmds cmd ts = Some (p, r) → length r ≤ length ts.
Proof.
  induction n as [|n IH]; intros cmds cmd ts p r; [done|]. cbn [p_pipe].
  assert (∀ cmds cmd r' k, length r' ≤ k → p_pipe n cmds cmd r' = Some (p, r) → length r ≤ S k) as C.
  { intros a b r' k L E. apply IH in E. lia. }
  destruct ts as [|[] ts]; cbn [length].
  all: try by apply C.
  all: try done.
  all: try by destruct cmd; [|intros [= <- <-]].
  all: try by destruct cmd; [done|]; apply C.
  - destruct (take_fields _) as [fs r'] eqn:E. apply take_fields_len in E as [_ E]. cbn [length] in E. apply C. lia.
  - destruct (take_fields ts) as [fs r'] eqn:E. apply take_fields_len in E as [E _]. by apply C.
  - destruct (p_pipe n [] [] ts) as [[p' r']|] eqn:E; [|done]. cbn [base.mbind option_bind]. apply IH in E.
    destruct r' as [|[] r']; try done. cbn [length] in E. apply C. lia.
Qed.
Lemma p_pipe_fuel n : ∀ m cmds cmd ts, length ts < n → length ts < m → p_pipe n cmds cmd ts = p_pipe m cmds cmd ts.
Proof.
  induction n as [|n IH]; intros m cmds cmd ts Hn Hm; [lia|]. destruct m as [|m]; [lia|]. cbn [p_pipe].
  destruct ts as [|[] ts]; cbn [length] in *; try done; try (apply IH; lia).
  - destruct (take_fields _) as [fs r'] eqn:E. apply take_fields_len in E as [_ E]. cbn [length] in E. apply IH; lia.
  - destruct (take_fields ts) as [fs r'] eqn:E. apply take_fields_len in E as [E _]. apply IH; lia.
  - destruct cmd; [done|]. apply IH; lia.
  - rewrite (IH m [] [] ts) by lia. destruct (p_pipe m [] [] ts) as [[p' r']|] eqn:E; [|done]. cbn [base.mbind option_bind].
    apply p_pipe_len in E. destruct r' as [|[] r']; try done. cbn [length] in E. apply IH; lia.
Qed.

(** *** Control structures *)

Definition rest {A B C} (o : option (A * B * C * list item)) : option (list item) :=
  match o with Some (_, _, _, r) => Some r | None => None end.

Lemma p_list_len n : ∀ top is ns ds e r, p_list n top is = Some (ns, ds, e, r) → length r ≤ length is.
Proof.
  induction n as [|n IH]; intros top is ns ds e r; [done|]. cbn [p_list].
  assert (∀ x r' k ns ds e r, length r' ≤ k →
    ('(ns, ds, e, r) ← p_list n top r'; Some (x :: ns, ds, e, r)) = Some (ns, ds, e, r) → length r ≤ S k) as C.
  { intros x r' k ns' ds' e' r0 L E. destruct (p_list n top r') as [[[[? ?] ?] ?]|] eqn:F; [|done]. cbn [base.mbind option_bind] in E.
    injection E as <- <- <- <-. apply IH in F. lia. }
  assert (∀ (k : list node → list node → node) r' m ns ds e r, length r' ≤ m →
    ('(t, _, e, r) ← p_list n false r';
     match e with
     | EEnd => '(ns, ds, e, r) ← p_list n top r; Some (k t [] :: ns, ds, e, r)
     | EElse =>
       '(f, _, e, r) ← p_list n false r;
       match e with EEnd => '(ns, ds, e, r) ← p_list n top r; Some (k t f :: ns, ds, e, r) | _ => None end
     | EFile => None
     end) = Some (ns, ds, e, r) → length r ≤ S m) as D.
  { intros k r' m ns' ds' e' r0 L E. destruct (p_list n false r') as [[[[t ?] e1] r1]|] eqn:F; [|done]. cbn [base.mbind option_bind] in E.
    apply IH in F. destruct e1; [..|done].
    - eapply C; [|exact E]. lia.
    - destruct (p_list n false r1) as [[[[f ?] e2] r2]|] eqn:F2; [|done]. cbn [base.mbind option_bind] in E. apply IH in F2.
      destruct e2; try done. eapply C; [|exact E]. lia. }
  destruct is as [|[s|ts] is]; cbn [length].
  - by intros [= <- <- <- <-].
  - by apply C.
  - assert (∀ (o : option pipe) (k : pipe → node) ns ds e r,
      (p ← o; '(ns, ds, e, r) ← p_list n top is; Some (k p :: ns, ds, e, r)) = Some (ns, ds, e, r) → length r ≤ S (length is)) as C'.
    { intros [p|] k ns' ds' e' r'; [|done]. cbn [base.mbind option_bind]. by apply C. }
    assert (match decl_of ts with
      | ([v], ts') => p ← pipe_of ts'; '(ns, ds, e, r) ← p_list n top is; Some (NDecl v p :: ns, ds, e, r)
      | _ => p ← pipe_of ts; '(ns, ds, e, r) ← p_list n top is; Some (NAct XRaw p :: ns, ds, e, r)
      end = Some (ns, ds, e, r) → length r ≤ S (length is)) as O.
    { destruct (decl_of ts) as [[|v [|w vs]] ts']; apply C'. }
    destruct (skip_space ts) as [|[] ts']; try exact O. clear O.
    destruct (String.eqb _ "end"). { destruct (skip_space ts'); [|done]. intros [= <- <- <- <-]. lia. }
    destruct (String.eqb _ "else"). { destruct (skip_space ts'); [|done]. intros [= <- <- <- <-]. lia. }
    destruct (String.eqb _ "if"). { destruct (pipe_of ts') as [p|]; [|done]. cbn [base.mbind option_bind]. by apply D. }
    destruct (String.eqb _ "with"). { destruct (pipe_of ts') as [p|]; [|done]. cbn [base.mbind option_bind]. by apply D. }
    destruct (String.eqb _ "range").
    { destruct (decl_of ts') as [vs ts'']. destruct (pipe_of ts'') as [p|]; [|done]. cbn [base.mbind option_bind]. by apply D. }
    destruct (String.eqb _ "template").
    { destruct (skip_space ts') as [|[] ts'']; try done. destruct (skip_space ts''); [by apply C|].
      destruct (pipe_of _) as [p|]; [|done]. cbn [base.mbind option_bind]. by apply C. }
    destruct (String.eqb _ "define").
    { destruct top; [|done]. destruct (skip_space ts') as [|[] ts'']; try done. destruct (skip_space ts''); [|done].
      destruct (p_list n false is) as [[[[t ?] e1] r1]|] eqn:F; [|done]. cbn [base.mbind option_bind]. apply IH in F.
      destruct e1; try done. destruct (p_list n true r1) as [[[[? ?] ?] ?]|] eqn:G; [|done]. cbn [base.mbind option_bind].
      intros [= <- <- <- <-]. apply IH in G. lia. }
    destruct (_ || _); [done|]. apply (C' _ (NAct XRaw)).
Qed.

Lemma p_list_fuel n : ∀ m top is, length is < n → length is < m → p_list n top is = p_list m top is.
Proof.
  induction n as [|n IH]; intros m top is Hn Hm; [lia|]. destruct m as [|m]; [lia|]. cbn [p_list].
  destruct is as [|[s|ts] is]; cbn [length] in *.
  - done.
  - by rewrite (IH m top is) by lia.
  - assert (∀ k : list node → list node → node,
      ('(t, _, e, r) ← p_list n false is;
       match e with
       | EEnd => '(ns, ds, e, r) ← p_list n top r; Some (k t [] :: ns, ds, e, r)
       | EElse =>
         '(f, _, e, r) ← p_list n false r;
         match e with EEnd => '(ns, ds, e, r) ← p_list n top r; Some (k t f :: ns, ds, e, r) | _ => None end
       | EFile => None
       end) =
      ('(t, _, e, r) ← p_list m false is;
       match e with
       | EEnd => '(ns, ds, e, r) ← p_list m top r; Some (k t [] :: ns, ds, e, r)
       | EElse =>
         '(f, _, e, r) ← p_list m false r;
         match e with EEnd => '(ns, ds, e, r) ← p_list m top r; Some (k t f :: ns, ds, e, r) | _ => None end
       | EFile => None
       end)) as D.
    { intros k. rewrite (IH m false is) by lia.
      destruct (p_list m false is) as [[[[t ?] e1] r1]|] eqn:F; [|done]. cbn [base.mbind option_bind]. apply p_list_len in F.
      destruct e1; [..|done].
      - by rewrite (IH m top r1) by lia.
      - rewrite (IH m false r1) by lia.
        destruct (p_list m false r1) as [[[[f ?] e2] r2]|] eqn:F2; [|done]. cbn [base.mbind option_bind]. apply p_list_len in F2.
        destruct e2; try done. by rewrite (IH m top r2) by lia. }
    cbv zeta. rewrite !(IH m top is) by lia.
    destruct (skip_space ts) as [|[] ts']; try done.
    destruct (String.eqb _ "end"); [done|]. destruct (String.eqb _ "else"); [done|].
    destruct (String.eqb _ "if"). { destruct (pipe_of ts') as [p|]; [|done]. cbn [base.mbind option_bind]. apply D. }
    destruct (String.eqb _ "with"). { destruct (pipe_of ts') as [p|]; [|done]. cbn [base.mbind option_bind]. apply D. }
    destruct (String.eqb _ "range").
    { destruct (decl_of ts') as [vs ts'']. destruct (pipe_of ts'') as [p|]; [|done]. cbn [base.mbind option_bind]. apply D. }
    destruct (String.eqb _ "template"); [done|].
    destruct (String.eqb _ "define"); [|done].
    destruct top; [|done]. destruct (skip_space ts') as [|[] ts'']; try done. destruct (skip_space ts''); [|done].
    rewrite (IH m false is) by lia.
    destruct (p_list m false is) as [[[[t ?] e1] r1]|] eqn:F; [|done]. cbn [base.mbind option_bind]. apply p_list_len in F.
    destruct e1; try done. by rewrite (IH m true r1) by lia.
Qed.
