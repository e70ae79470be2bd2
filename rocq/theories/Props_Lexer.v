(** C72: highlighting Booklit documents. *)
From Coq Require Import Ascii String Lia.
From stdpp Require Import base tactics strings list.
From Verif Require Import GoBase StrProofs Ast Peg Lexer.
Local Open Scope string_scope. Local Open Scope list_scope.

(** ** What is to be shown *)

(** The type of each character. *)
Definition colours (ts : list token) : list ltype := concat (map (λ t, replicate (String.length (snd t)) (fst t)) ts).

(** Characters of function names; characters that can be escaped. *)
Definition in_name (c : ascii) : Prop := c = "-"%char ∨ (97 ≤ nat_of_ascii c ∧ nat_of_ascii c ≤ 122).
Definition special (c : ascii) : Prop := c = "\"%char ∨ c = "{"%char ∨ c = "}"%char.

Fixpoint all_chars (P : ascii → Prop) (s : string) : Prop :=
  match s with "" => True | String c s => P c ∧ all_chars P s end.
Definition begins (P : ascii → Prop) (s : string) : Prop := match s with "" => False | String c _ => P c end.
Definition with_prefix (p s : string) : Prop := ∃ r, s = p +:+ r.

(** What is between the ends of a comment that [rest] follows: comments nest. *)
Inductive comment_body : string → string → Prop :=
| cb_nil rest : comment_body "" rest
| cb_char c s rest : ¬ with_prefix "{-" (String c (s +:+ rest)) → ¬ with_prefix "-}" (String c (s +:+ rest)) →
    comment_body s rest → comment_body (String c s) rest
| cb_nest b s rest : comment_body b ("-}" +:+ s +:+ rest) → comment_body s rest →
    comment_body ("{-" +:+ b +:+ "-}" +:+ s) rest.

(** Documents and the type of each of their characters. *)
Inductive highlighted : string → list ltype → Prop :=
| h_nil : highlighted "" []
| h_plain c s cs : ¬ special c → highlighted s cs → highlighted (String c s) (TyText :: cs)
| h_func n s cs : n ≠ "" → all_chars in_name n → ¬ begins in_name s → highlighted s cs →
    highlighted ("\" +:+ n +:+ s) (replicate (1 + String.length n) TyKeyword ++ cs)
| h_escape e s cs : e ≠ "" → all_chars special e → ¬ begins special s → highlighted s cs →
    highlighted ("\" +:+ e +:+ s) (replicate (1 + String.length e) TyText ++ cs)
| h_open s cs : ¬ with_prefix "-" s → ¬ with_prefix "{{" s → highlighted s cs →
    highlighted ("{" +:+ s) (TyNameBuiltin :: cs)
| h_close s cs : highlighted s cs → highlighted ("}" +:+ s) (TyNameBuiltin :: cs)
| h_verbatim b s cs : (∀ x y, b +:+ "}" ≠ x +:+ "}}" +:+ y) → highlighted s cs →
    highlighted ("{{{" +:+ b +:+ "}}}" +:+ s) (replicate (6 + String.length b) TyStringDouble ++ cs)
| h_comment b s cs : comment_body b ("-}" +:+ s) → highlighted s cs →
    highlighted ("{-" +:+ b +:+ "-}" +:+ s) (replicate (4 + String.length b) TyCommentMultiline ++ cs).

(** ** Matching *)

Lemma span_app p s : ∀ a b, span p s = (a, b) → s = a +:+ b.
Proof.
  induction s as [|c s IH]; simpl; intros a b; [by intros [= <- <-]|].
  destruct (p c); [|by intros [= <- <-]]. destruct (span p s) as [x y] eqn:E. intros [= <- <-].
  by rewrite (IH _ _ eq_refl).
Qed.
Lemma match_at_app pat : ∀ s m r, match_at pat s = Some (m, r) → s = m +:+ r.
Proof.
  induction pat as [|[p|p] pat IH]; intros s m r; simpl.
  - by intros [= <- <-].
  - destruct s as [|c s]; [done|]. destruct (p c); [|done].
    destruct (match_at pat s) as [[m' r']|] eqn:E; [|done]. simpl. intros [= <- <-]. by rewrite (IH _ _ _ E).
  - destruct (span p s) as [[|c m'] r'] eqn:E; [done|]. apply span_app in E as ->.
    destruct (match_at pat r') as [[m'' r'']|] eqn:E; [|done]. simpl. intros [= <- <-].
    rewrite (IH _ _ _ E). by rewrite <- sapp_assoc.
Qed.
Lemma match_at_some pat s m r : pat ≠ [] → match_at pat s = Some (m, r) → m ≠ "".
Proof.
  destruct pat as [|[p|p] pat]; [done| |]; intros _; simpl.
  - destruct s as [|c s]; [done|]. destruct (p c); [|done]. destruct (match_at pat s) as [[]|]; [|done]. simpl. by intros [= <- _].
  - destruct (span p s) as [[|c m'] r']; [done|]. destruct (match_at pat r') as [[]|]; [|done]. simpl. by intros [= <- _].
Qed.
Lemma match_rules_some rs : ∀ s ru m r, match_rules rs s = Some (ru, m, r) → ru ∈ rs ∧ match_at (r_pat ru) s = Some (m, r).
Proof.
  induction rs as [|ru' rs IH]; intros s ru m r; simpl; [done|].
  destruct (match_at (r_pat ru') s) as [[m' r']|] eqn:E.
  - intros [= <- <- <-]. split; [left|done].
  - intros H. destruct (IH _ _ _ _ H). split; [by right|done].
Qed.
Lemma rules_eat st s ru m r : match_rules (booklit_rules st) s = Some (ru, m, r) → s = m +:+ r ∧ m ≠ "".
Proof.
  intros [Hi Hm]%match_rules_some. split; [by eapply match_at_app|]. eapply match_at_some; [|done].
  destruct st; simpl in Hi; rewrite ?elem_of_cons, ?elem_of_nil in Hi; naive_solver.
Qed.

Lemma exactly_none p : ∀ s, ¬ with_prefix p s → match_at (exactly p) s = None.
Proof.
  induction p as [|c p IH]; intros s H; [destruct H; by exists s|].
  change (exactly (String c p)) with (One (Ascii.eqb c) :: exactly p). cbn [match_at].
  destruct s as [|d s]; [done|]. destruct (Ascii.eqb_spec c d) as [<-|]; [|done].
  rewrite IH; [done|]. intros [r ->]. apply H. by exists r.
Qed.

(** Every newline outside the first state is taken by a rule. *)
Lemma no_reset st c s : match_rules (booklit_rules st) (String c s) = None → Ascii.eqb c nl = true → st = LRoot.
Proof.
  intros H ->%Ascii.eqb_eq. destruct st; [done| |]; exfalso; revert H; simpl; destruct (span _ s); done.
Qed.

(** The stack has the first state at its bottom and nowhere else. *)
Definition good (stack : list lstate) : Prop := ∃ l, stack = l ++ [LRoot] ∧ Forall (λ s, s ≠ LRoot) l.
Lemma good_mutate st stack ru : good (st :: stack) → ru ∈ booklit_rules st → good (mutate (r_mut ru) (st :: stack)).
Proof.
  intros (l & El & Hl) Hi.
  assert (∀ x, x ≠ LRoot → good (x :: st :: stack)) as Hp.
  { intros x Hx. exists (x :: l). rewrite El. split; [done|by constructor]. }
  assert (st ≠ LRoot → good stack) as Hq.
  { intros Hs. destruct l as [|y l]; simpl in El; injection El as -> ->; [done|]. exists l. by apply Forall_cons in Hl as [_ ?]. }
  destruct st; simpl in Hi; rewrite ?elem_of_cons, ?elem_of_nil in Hi;
    destruct_or?; subst; simpl; try done; try (by exists l); try (by apply Hp); try by apply Hq.
Qed.

Lemma lex_total : ∀ n stack s, good stack → String.length s < n → ∃ ts, lex n stack s = Some ts.
Proof.
  induction n as [|n IH]; intros stack s Hg Hn; [lia|]. destruct s as [|c s]; [by eexists|]. simpl lex.
  destruct stack as [|st stack]; [by eexists|].
  destruct (match_rules _ _) as [[[ru m] r]|] eqn:E.
  - destruct (rules_eat _ _ _ _ _ E) as [Es Hm]. destruct (match_rules_some _ _ _ _ _ E) as [Hi _].
    destruct (IH (mutate (r_mut ru) (st :: stack)) r) as (ts & Hts); [by apply good_mutate| |].
    + apply (f_equal String.length) in Es. rewrite slength_app in Es. destruct m; [done|]. simpl in *. lia.
    + unfold token in *. setoid_rewrite Hts. by eexists.
  - destruct (Ascii.eqb c nl) eqn:Ec; [pose proof (no_reset _ _ _ E Ec) as ->|]; simpl;
      (destruct (IH _ s Hg) as (ts & Hts); [simpl in *; lia|]; setoid_rewrite Hts; by eexists).
Qed.

(** ** Nothing is lost *)

Lemma lex_text : ∀ n stack s ts, lex n stack s = Some ts → sconcat (map snd ts) = s ∧ Forall (λ t, snd t ≠ "") ts.
Proof.
  induction n as [|n IH]; intros stack s ts; (destruct s as [|c s]; [by intros [= <-]|]); [done|]. simpl lex.
  destruct stack as [|st stack].
  { intros [= <-]. simpl. by rewrite sapp_nil_r, Forall_singleton. }
  destruct (match_rules _ _) as [[[ru m] r]|] eqn:E.
  - destruct (rules_eat _ _ _ _ _ E) as [Es Hm]. destruct (lex n _ r) as [ts'|] eqn:El; [|done]. intros [= <-].
    destruct (IH _ _ _ El) as [<- ?]. simpl. rewrite Forall_cons. by rewrite Es.
  - destruct (_ && _); [apply IH|]. destruct (lex n _ s) as [ts'|] eqn:El; [|done]. intros [= <-].
    destruct (IH _ _ _ El) as [<- ?]. simpl. by rewrite Forall_cons.
Qed.

(** The lexer gives tokens for every text, none empty, and together they are the
    text, its line endings as LF. *)
Theorem lexer_keeps : ∀ s, ∃ ts, tokenise s = Some ts ∧ sconcat (map snd ts) = ensure_lf s ∧ Forall (λ t, snd t ≠ "") ts.
Proof.
  intros s. destruct (lex_total (S (String.length (ensure_lf s))) [LRoot] (ensure_lf s)) as (ts & H); [by exists []|lia|].
  exists ts. split; [done|]. by eapply lex_text.
Qed.
Print Assumptions lexer_keeps.

(** ** Types *)

Definition lexes (stack : list lstate) (s : string) (cs : list ltype) : Prop :=
  ∃ n ts, lex n stack s = Some ts ∧ colours ts = cs.

Lemma lexes_nil stack : lexes stack "" [].
Proof. by exists 0, []. Qed.
Lemma lexes_step st stack s ru m r cs : s ≠ "" → match_rules (booklit_rules st) s = Some (ru, m, r) →
  lexes (mutate (r_mut ru) (st :: stack)) r cs → lexes (st :: stack) s (replicate (String.length m) (r_type ru) ++ cs).
Proof.
  intros Hs Hm (n & ts & H & <-). exists (S n), ((r_type ru, m) :: ts). destruct s as [|c s]; [done|].
  simpl lex. rewrite Hm. setoid_rewrite H. done.
Qed.

(** One more character before a repetition. *)
Lemma lexes_many st stack p ty :
  (∀ c s m r, p c = true → span p (String c s) = (m, r) →
     match_rules (booklit_rules st) (String c s) = Some (Rule [Many p] ty MNil, m, r)) →
  ∀ c s cs, p c = true → lexes (st :: stack) s cs → lexes (st :: stack) (String c s) (ty :: cs).
Proof.
  intros Hr c s cs Hc Hl. destruct s as [|d s].
  { destruct Hl as (n & ts & H & <-). assert (ts = []) as -> by (by destruct n; simpl in H; injection H as <-).
    change (ty :: colours []) with (replicate (String.length (String c "")) (r_type (Rule [Many p] ty MNil)) ++ []).
    eapply lexes_step; [done| |apply lexes_nil]. apply Hr; [done|]. simpl. by rewrite Hc. }
  destruct (p d) eqn:Hd.
  - destruct Hl as (n & ts & H & <-). destruct n as [|n]; [done|]. destruct (span p (String d s)) as [m r] eqn:E.
    simpl lex in H. rewrite (Hr _ _ _ _ Hd E) in H. destruct (lex n _ r) as [ts'|] eqn:El; [|done]. simpl in H. injection H as <-.
    change (ty :: colours ((ty, m) :: ts')) with
      (replicate (String.length (String c m)) (r_type (Rule [Many p] ty MNil)) ++ colours ts').
    eapply lexes_step; [done| |by exists n, ts']. apply Hr; [done|]. simpl. rewrite Hc. simpl in E. rewrite Hd in E.
    rewrite Hd. destruct (span p s). by injection E as <- <-.
  - change (ty :: cs) with (replicate (String.length (String c "")) (r_type (Rule [Many p] ty MNil)) ++ cs).
    eapply lexes_step; [done| |exact Hl]. apply Hr; [done|]. simpl. by rewrite Hc, Hd.
Qed.

Lemma among_special c : among "\{}" c = true ↔ special c.
Proof.
  unfold among, special. simpl. rewrite !orb_true_iff, !Ascii.eqb_eq. naive_solver.
Qed.
Lemma but_special c : but "\{}" c = true ↔ ¬ special c.
Proof. unfold but. rewrite negb_true_iff, <- among_special. by destruct (among _ _). Qed.
Lemma lower_dash_name c : lower_dash c = true ↔ in_name c.
Proof.
  unfold lower_dash, in_name. rewrite orb_true_iff, andb_true_iff, !Nat.leb_le, Ascii.eqb_eq. tauto.
Qed.
Lemma but_brace c : but "}" c = true ↔ c ≠ "}"%char.
Proof.
  unfold but, among. simpl. rewrite orb_false_r, negb_true_iff. destruct (Ascii.eqb_spec c "}"); naive_solver.
Qed.

Lemma span_all p s r : sforall p s = true → match r with "" => True | String c _ => p c = false end →
  span p (s +:+ r) = (s, r).
Proof.
  induction s as [|c s IH]; simpl; intros H Hr.
  - destruct r as [|c r]; [done|]. simpl. by rewrite Hr.
  - apply andb_true_iff in H as [-> H]. by rewrite IH.
Qed.

Lemma lexes_plain stack c s cs : ¬ special c → lexes (LRoot :: stack) s cs → lexes (LRoot :: stack) (String c s) (TyText :: cs).
Proof.
  intros Hc. apply (lexes_many LRoot stack (but "\{}") TyText); [|by apply but_special].
  clear. intros c s m r Hc E. cbn [booklit_rules match_rules r_pat match_at]. rewrite E.
  assert (m ≠ "") as Hm. { simpl in E. rewrite Hc in E. destruct (span _ s). by injection E as <- _. }
  destruct m; [done|]. cbn [mbind option_bind]. by rewrite sapp_nil_r.
Qed.
Lemma lexes_verbatim_char stack c s cs : c ≠ "}"%char → lexes (LVerbatim :: stack) s cs →
  lexes (LVerbatim :: stack) (String c s) (TyStringDouble :: cs).
Proof.
  intros Hc. apply (lexes_many LVerbatim stack (but "}") TyStringDouble); [|by apply but_brace].
  clear. intros c s m r Hc E.
  assert (match_at (exactly "}}}") (String c s) = None) as X.
  { apply exactly_none. intros [r' [= -> _]]. by apply but_brace in Hc. }
  cbn [booklit_rules match_rules r_pat]. rewrite X. cbn [match_at]. rewrite E.
  assert (m ≠ "") as Hm. { simpl in E. rewrite Hc in E. destruct (span _ s). by injection E as <- _. }
  destruct m; [done|]. cbn [mbind option_bind]. by rewrite sapp_nil_r.
Qed.
Lemma lexes_comment_char stack c s cs : ¬ with_prefix "{-" (String c s) → ¬ with_prefix "-}" (String c s) →
  lexes (LComment :: stack) s cs → lexes (LComment :: stack) (String c s) (TyCommentMultiline :: cs).
Proof.
  intros H1 H2. destruct (but "-{}" c) eqn:Hc.
  - apply (lexes_many LComment stack (but "-{}") TyCommentMultiline); [|done].
    clear. intros c s m r Hc E. cbn [booklit_rules match_rules r_pat match_at]. rewrite E.
    assert (m ≠ "") as Hm. { simpl in E. rewrite Hc in E. destruct (span _ s). by injection E as <- _. }
    destruct m; [done|]. cbn [mbind option_bind]. by rewrite sapp_nil_r.
  - intros Hl. change (TyCommentMultiline :: cs) with
      (replicate (String.length (String c "")) (r_type (Rule [One (among "-{}")] TyCommentMultiline MNil)) ++ cs).
    eapply lexes_step; [done| |exact Hl].
    assert (match_at (exactly "{-") (String c s) = None) as X1 by (by apply exactly_none).
    assert (match_at (exactly "-}") (String c s) = None) as X2 by (by apply exactly_none).
    cbn [booklit_rules match_rules r_pat]. rewrite X1, X2. cbn [match_at span]. rewrite Hc.
    unfold but in Hc. apply negb_false_iff in Hc. by rewrite Hc.
Qed.

Lemma replicate_app {A} a b (x : A) l : replicate (a + b) x ++ l = replicate a x ++ replicate b x ++ l.
Proof. rewrite replicate_add. by rewrite <- (assoc_L (++)). Qed.

Lemma lexes_comment_body b rest : comment_body b rest → ∀ stack cs, lexes (LComment :: stack) rest cs →
  lexes (LComment :: stack) (b +:+ rest) (replicate (String.length b) TyCommentMultiline ++ cs).
Proof.
  induction 1 as [rest|c s rest H1 H2 _ IH|b s rest _ IHb _ IHs]; intros stack cs Hl.
  - done.
  - rewrite sapp_cons. simpl. apply lexes_comment_char; [done|done|by apply IH].
  - rewrite !sapp_assoc, !slength_app, !replicate_app.
    apply (lexes_step _ _ _ (Rule (exactly "{-") TyCommentMultiline MPushTop) "{-" (b +:+ "-}" +:+ s +:+ rest)); [done|done|].
    apply IHb. apply (lexes_step _ _ _ (Rule (exactly "-}") TyCommentMultiline MPop) "-}" (s +:+ rest)); [done|done|].
    by apply IHs.
Qed.

Lemma lexes_verbatim_body stack rest cs : lexes (LVerbatim :: stack) ("}}}" +:+ rest) cs →
  ∀ n b, String.length b ≤ n → (∀ x y, b +:+ "}" ≠ x +:+ "}}" +:+ y) →
  lexes (LVerbatim :: stack) (b +:+ "}}}" +:+ rest) (replicate (String.length b) TyStringDouble ++ cs).
Proof.
  intros Hl. induction n as [|n IH]; intros b Hn Hb.
  { destruct b; [done|simpl in Hn; lia]. }
  destruct b as [|c b]; [done|]. simpl in Hn.
  assert (∀ x y, b +:+ "}" ≠ x +:+ "}}" +:+ y) as Hb'.
  { intros x y E. apply (Hb (String c x) y). rewrite !sapp_cons. by rewrite E. }
  destruct (decide (c = "}"%char)) as [->|Hc].
  - destruct b as [|d b]; [by destruct (Hb "" "")|].
    assert (d ≠ "}"%char) as Hd. { intros ->. by apply (Hb "" (b +:+ "}")). }
    change (String.length (String "}" (String d b))) with (2 + String.length b). rewrite replicate_app.
    apply (lexes_step _ _ _ (Rule [One (Ascii.eqb "}"); One (but "}")] TyStringDouble MNil) (String "}" (String d "")) (b +:+ "}}}" +:+ rest)).
    + done.
    + change (String "}" (String d b) +:+ "}}}" +:+ rest) with (String "}" (String d (b +:+ "}}}" +:+ rest))).
      cbn [booklit_rules match_rules r_pat]. apply but_brace in Hd as Hd'.
      assert (match_at (exactly "}}}") (String "}" (String d (b +:+ "}}}" +:+ rest))) = None) as X.
      { apply exactly_none. by intros [r [= -> _]]. }
      rewrite X. cbn [match_at span]. change (but "}" "}"%char) with false. cbn iota.
      change (Ascii.eqb "}" "}") with true. cbn iota. by rewrite Hd'.
    + apply IH; [simpl in Hn; lia|]. intros x y E. apply (Hb' (String d x) y). rewrite !sapp_cons. by rewrite E.
  - rewrite sapp_cons. simpl. apply lexes_verbatim_char; [done|]. apply IH; [lia|done].
Qed.

Lemma sforall_all (p : ascii → bool) (P : ascii → Prop) s : (∀ c, p c = true ↔ P c) → all_chars P s → sforall p s = true.
Proof. intros H. induction s as [|c s IH]; simpl; [done|]. intros [H1%H H2]. rewrite H1. simpl. by apply IH. Qed.
Lemma begins_false (p : ascii → bool) (P : ascii → Prop) s : (∀ c, p c = true ↔ P c) → ¬ begins P s →
  match s with "" => True | String c _ => p c = false end.
Proof. intros H. destruct s as [|c s]; [done|]. simpl. rewrite <- H. by destruct (p c). Qed.

Lemma lexes_highlighted s cs : highlighted s cs → lexes [LRoot] s cs.
Proof.
  induction 1 as [|c s cs Hc _ IH|n s cs Hn Ha Hb _ IH|e s cs Hn Ha Hb _ IH|s cs H1 H2 _ IH|s cs _ IH|b s cs Hb _ IH|b s cs Hb _ IH].
  - apply lexes_nil.
  - by apply lexes_plain.
  - apply (lexes_step _ _ _ (Rule [One (Ascii.eqb "\"); Many lower_dash] TyKeyword MNil) ("\" +:+ n) s); [done| |done].
    apply (sforall_all _ _ _ lower_dash_name) in Ha. apply (begins_false _ _ _ lower_dash_name) in Hb.
    pose proof (span_all _ _ _ Ha Hb) as E. cbn [booklit_rules match_rules r_pat].
    rewrite (sapp_cons "\" ""), sapp_nil_l.
    assert (∀ X, match_at (One (Ascii.eqb "{") :: X) (String "\" (n +:+ s)) = None) as X by done.
    change (exactly "{{{") with (One (Ascii.eqb "{") :: exactly "{{"). change (exactly "{-") with (One (Ascii.eqb "{") :: exactly "-").
    rewrite !X. cbn [match_at span]. change (but "\{}" "\"%char) with false. change (among "{}" "\"%char) with false.
    change (Ascii.eqb "\" "\") with true. cbn iota. rewrite E. destruct n; [done|]. cbn [mbind option_bind]. by rewrite sapp_nil_r.
  - apply (lexes_step _ _ _ (Rule [One (Ascii.eqb "\"); Many (among "\{}")] TyText MNil) ("\" +:+ e) s); [done| |done].
    assert (begins special (e +:+ s)) as Hs. { destruct e; [done|]. by destruct Ha. }
    apply (sforall_all _ _ _ among_special) in Ha. apply (begins_false _ _ _ among_special) in Hb.
    pose proof (span_all _ _ _ Ha Hb) as E. cbn [booklit_rules match_rules r_pat].
    rewrite (sapp_cons "\" ""), sapp_nil_l.
    assert (∀ X, match_at (One (Ascii.eqb "{") :: X) (String "\" (e +:+ s)) = None) as X by done.
    change (exactly "{{{") with (One (Ascii.eqb "{") :: exactly "{{"). change (exactly "{-") with (One (Ascii.eqb "{") :: exactly "-").
    rewrite !X. cbn [match_at]. change (span (but "\{}") (String "\" (e +:+ s))) with ("", String "\" (e +:+ s)).
    change (among "{}" "\"%char) with false. change (Ascii.eqb "\" "\") with true. cbn iota.
    assert (span lower_dash (e +:+ s) = ("", e +:+ s)) as ->.
    { destruct (e +:+ s) as [|d t]; [done|]. by destruct Hs as [-> | [-> | ->]]. }
    rewrite E. destruct e; [done|]. cbn [mbind option_bind]. by rewrite sapp_nil_r.
  - change (TyNameBuiltin :: cs) with (replicate (String.length "{") (r_type (Rule [One (among "{}")] TyNameBuiltin MNil)) ++ cs).
    eapply lexes_step; [done| |exact IH]. rewrite (sapp_cons "{" ""), sapp_nil_l.
    destruct s as [|c s]; [done|]. assert (c ≠ "-"%char) as Hc by (intros ->; apply H1; by exists s).
    assert (match_at (exactly "{{{") (String "{" (String c s)) = None) as X1.
    { apply exactly_none. intros [r E]. apply H2. injection E as -> ->. by exists r. }
    assert (match_at (exactly "{-") (String "{" (String c s)) = None) as X2.
    { apply exactly_none. by intros [r [= -> _]]. }
    cbn [booklit_rules match_rules r_pat]. by rewrite X1, X2.
  - change (TyNameBuiltin :: cs) with (replicate (String.length "}") (r_type (Rule [One (among "{}")] TyNameBuiltin MNil)) ++ cs).
    eapply lexes_step; [done| |exact IH]. done.
  - replace (6 + String.length b) with (3 + (String.length b + 3)) by lia. rewrite !replicate_app.
    apply (lexes_step _ _ _ (Rule (exactly "{{{") TyStringDouble (MPush LVerbatim)) "{{{" (b +:+ "}}}" +:+ s)); [done|done|].
    eapply lexes_verbatim_body; [|done|exact Hb].
    by apply (lexes_step _ _ _ (Rule (exactly "}}}") TyStringDouble MPop) "}}}" s).
  - replace (4 + String.length b) with (2 + (String.length b + 2)) by lia. rewrite !replicate_app.
    apply (lexes_step _ _ _ (Rule (exactly "{-") TyCommentMultiline (MPush LComment)) "{-" (b +:+ "-}" +:+ s)); [done|done|].
    apply lexes_comment_body; [exact Hb|].
    by apply (lexes_step _ _ _ (Rule (exactly "-}") TyCommentMultiline MPop) "-}" s).
Qed.

Lemma lex_more n : ∀ stack s ts m, lex n stack s = Some ts → n ≤ m → lex m stack s = Some ts.
Proof.
  induction n as [|n IH]; intros stack s ts m H Hm; (destruct s as [|c s]; [by destruct m|]); [done|].
  destruct m as [|m]; [lia|]. simpl lex in *. destruct stack as [|st stack]; [done|].
  destruct (match_rules _ _) as [[[ru x] r]|].
  - destruct (lex n _ r) as [ts'|] eqn:E; [|done]. by rewrite (IH _ _ _ m E ltac:(lia)).
  - destruct (_ && _); [by apply IH; [|lia]|].
    destruct (lex n _ s) as [ts'|] eqn:E; [|done]. by rewrite (IH _ _ _ m E ltac:(lia)).
Qed.

(** Documents are highlighted as described: functions as keywords, braces as
    built-in names, comments (which nest) and verbatim text each as what they are,
    with their delimiters, and all else as text. *)
Theorem lexer_highlights : ∀ s cs, highlighted (ensure_lf s) cs → ∃ ts, tokenise s = Some ts ∧ colours ts = cs.
Proof.
  intros s cs (n & ts & H & Hc)%lexes_highlighted. destruct (lexer_keeps s) as (ts' & H' & _). exists ts'. split; [done|].
  unfold tokenise in H'. set (k := S _) in H'.
  pose proof (lex_more _ _ _ _ (max n k) H ltac:(lia)). pose proof (lex_more _ _ _ _ (max n k) H' ltac:(lia)). congruence.
Qed.
Print Assumptions lexer_highlights.

Example ex_highlighted : highlighted ("a \b-c{x}" +:+ "{- c {- d -} - { -}" +:+ "{{{v } w}}}" +:+ "\{")
  (replicate 2 TyText ++ replicate 4 TyKeyword ++ [TyNameBuiltin; TyText; TyNameBuiltin] ++ replicate 19 TyCommentMultiline ++
   replicate 11 TyStringDouble ++ replicate 2 TyText).
Proof.
  apply h_plain; [by intros [|[]]|]. apply h_plain; [by intros [|[]]|].
  apply (h_func "b-c"); [done|unfold all_chars, in_name; split_and!; (by left) || (right; split; vm_compute; lia) || done|intros [[=]|[_ H]]; vm_compute in H; lia|].
  apply h_open; [by intros []|by intros []|]. apply h_plain; [by intros [|[]]|]. apply h_close.
  apply (h_comment " c {- d -} - { ").
  { apply cb_char; [by intros []|by intros []|]. apply cb_char; [by intros []|by intros []|]. apply cb_char; [by intros []|by intros []|].
    apply (cb_nest " d " " - { ").
    - do 3 (apply cb_char; [by intros []|by intros []|]). constructor.
    - do 5 (apply cb_char; [by intros []|by intros []|]). constructor. }
  apply (h_verbatim "v } w").
  { intros x y E. repeat (destruct x as [|? x]; [discriminate E|]; first [discriminate E|injection E as _ E]). }
  apply (h_escape "{"); [done|simpl; unfold special; naive_solver|by intros []|]. constructor.
Qed.

(** ** Errors *)

(** What is marked as an error: a backslash that no name and nothing to escape
    follows, and in verbatim text a brace that another one or nothing follows. *)
Theorem lexer_errors : ∀ s ts before t after, tokenise s = Some ts → ts = before ++ (TyError, t) :: after →
  let rest := sconcat (map snd after) in
  (t = "\" ∧ ¬ begins in_name rest ∧ ¬ begins special rest) ∨ (t = "}" ∧ (rest = "" ∨ with_prefix "}" rest)).
Proof.
  intros s ts before t after. unfold tokenise. set (n := S _). clearbody n. revert before t after.
  assert (good [LRoot]) as Hg by (by exists []). revert Hg. generalize [LRoot]. generalize (ensure_lf s). clear s. revert ts.
  induction n as [|n IH]; intros ts s stack Hg before t after H Ets; (destruct s as [|c s]; [simpl in H; injection H as <-; by destruct before|]); [done|].
  simpl lex in H. destruct stack as [|st stack]; [by destruct Hg as ([] & ? & _)|].
  destruct (match_rules _ _) as [[[ru m] r]|] eqn:E.
  - destruct (lex n _ r) as [ts'|] eqn:El; [|done]. simpl in H. injection H as <-.
    destruct (match_rules_some _ _ _ _ _ E) as [Hi _].
    destruct before as [|b before]; simpl in Ets; injection Ets as E1 E2.
    + destruct st; simpl in Hi; rewrite ?elem_of_cons, ?elem_of_nil in Hi; destruct_or?; by subst.
    + eapply IH; [|exact El|exact E2]. by apply good_mutate.
  - assert (∃ ts', lex n (st :: stack) s = Some ts' ∧ ts = (TyError, String c "") :: ts') as (ts' & El & ->).
    { destruct (Ascii.eqb c nl) eqn:Ec; [pose proof (no_reset _ _ _ E Ec) as ->|]; simpl in H;
        (destruct (lex n _ s) as [ts'|]; [|done]; simpl in H; injection H as <-; by eexists). }
    destruct before as [|b before]; simpl in Ets; injection Ets as E1 E2; [|by eapply IH].
    subst t ts'. destruct (lex_text _ _ _ _ El) as [-> _]. clear -E. destruct st.
    + left. cbn [booklit_rules match_rules r_pat] in E.
      assert (special c) as Hc.
      { apply among_special. destruct (among "\{}" c) eqn:Ec; [done|].
        assert (but "\{}" c = true) as Ec' by (unfold but; by rewrite Ec). cbn [match_at span] in E. rewrite Ec' in E.
        by destruct (span (but "\{}") s). }
      destruct Hc as [-> | [-> | ->]].
      * split; [done|]. destruct s as [|d s]; [by split; intros []|]. split; intros Hd; simpl in Hd.
        -- apply lower_dash_name in Hd. simpl in E. rewrite Hd in E. by destruct (span _ s).
        -- simpl in E. destruct Hd as [-> | [-> | ->]]; simpl in E; by destruct (span _ s).
      * exfalso. change (match_at [Many (but "\{}")] (String "{" s)) with (@None (string * string)) in E.
        change (match_at [One (among "{}")] (String "{" s)) with (Some ("{", s)) in E.
        destruct (match_at (exactly "{{{") _) as [[]|]; [done|]. by destruct (match_at (exactly "{-") _) as [[]|].
      * done.
    + right. cbn [booklit_rules match_rules r_pat] in E. destruct (decide (c = "}"%char)) as [->|Hc].
      * split; [done|]. destruct s as [|d s]; [by left|]. right.
        destruct (decide (d = "}"%char)) as [->|Hd]; [by exists s|]. exfalso. apply but_brace in Hd.
        revert E. cbn [match_at span]. change (but "}" "}"%char) with false. change (Ascii.eqb "}" "}") with true. cbn iota.
        rewrite Hd. cbn [mbind option_bind]. repeat case_match; done.
      * exfalso. apply but_brace in Hc. revert E. cbn [match_at span]. rewrite Hc. destruct (span (but "}") s). repeat case_match; done.
    + exfalso. cbn [booklit_rules match_rules r_pat] in E. destruct (among "-{}" c) eqn:Hc; revert E; cbn [match_at span].
      * rewrite Hc. cbn [mbind option_bind]. repeat case_match; done.
      * assert (but "-{}" c = true) as Hc' by (unfold but; by rewrite Hc). rewrite Hc'.
        destruct (span (but "-{}") s). repeat case_match; done.
Qed.
Print Assumptions lexer_errors.

Example ex_errors : tokenise "a\1{{{x}}y}}}" = Some [(TyText, "a"); (TyError, "\"); (TyText, "1"); (TyStringDouble, "{{{");
  (TyStringDouble, "x"); (TyError, "}"); (TyStringDouble, "}y"); (TyStringDouble, "}}}")].
Proof. reflexivity. Qed.

(** ** Where highlighting is wrong *)

(** A comment after an escaped backslash is dropped by the parser but highlighted
    as text. *)
Theorem lexer_comment_refuted : ∃ s ts, go_parse s = PVal (VNode (NSeq [NPara [[NString "x "; NString "\"; NString " y"]]])) ∧
  tokenise s = Some ts ∧ TyCommentMultiline ∉ colours ts.
Proof.
  exists "x \\{- c -} y". eexists. split; [vm_compute; reflexivity|]. split; [reflexivity|].
  apply (bool_decide_unpack _). reflexivity.
Qed.
Print Assumptions lexer_comment_refuted.

(** Two closing braces in verbatim text are fine for the parser but highlighted as
    an error. *)
Theorem lexer_verbatim_refuted : ∃ s ts, (∃ v, go_parse s = PVal v) ∧ tokenise s = Some ts ∧ TyError ∈ colours ts.
Proof.
  exists "\b{{{x}}y}}}". eexists. split; [eexists; vm_compute; reflexivity|]. split; [reflexivity|].
  apply (bool_decide_unpack _). reflexivity.
Qed.
Print Assumptions lexer_verbatim_refuted.
