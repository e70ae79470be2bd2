(** Every text the grammar derives is parsed back to its tree: words, lines and
    documents. *)
From Coq Require Import Ascii String NArith Lia.
From stdpp Require Import base tactics relations strings numbers list.
From Verif Require Import GoBase Ast Utf8 Peg StrProofs PegBase Descent DescentProofs ParseSpec ParserMain
  Encoding Positions Runs Shape Grammar GrammarProofs.
Local Open Scope string_scope.
Local Open Scope list_scope.

Lemma break_ne w : is_break w → w ≠ "".
Proof. by intros [->| ->]. Qed.
Lemma comment_ne w : comment w → w ≠ "".
Proof. intros [t b _ _]. by destruct t. Qed.
Lemma app_ne_l a b : a ≠ "" → a +:+ b ≠ "".
Proof. by destruct a. Qed.
Lemma app_ne_r a b : b ≠ "" → a +:+ b ≠ "".
Proof. by destruct a. Qed.

Lemma break_no_comment w u : is_break w → no_comment (w +:+ u).
Proof. intros [->| ->]; by apply (no_comment_intro ""). Qed.
Lemma brace_no_comment u : no_comment ("}" +:+ u).
Proof. by apply (no_comment_intro ""). Qed.

(** ** Spacing *)

Lemma pa_spacing sp u s : spacing sp → spacing_end u →
  parses (λ n, pmany (p_spacing (p_comment n))) sp u s (λ _, True) s.
Proof.
  intros H [Hb Hc]. induction H as [|w r Hw Hr IH|w r Hw Hr IH].
  - apply pa_many_nil; [|done]. eapply re_alt; [by apply re_break|by apply re_comment].
  - eapply pa_many_cons; [by apply break_ne|by apply pa_alt_l, pa_break|done|done].
  - eapply pa_many_cons; [by apply comment_ne| |done|done].
    unfold p_spacing. destruct Hw as [t b Ht Hw].
    eapply pa_alt_r; [|by apply pa_comment].
    apply re_break. destruct t as [|a t]; [done|]. simpl in Ht. apply andb_true_iff in Ht as [Ha _].
    unfold no_break, starts. cbn [append has_prefix nls].
    destruct (Ascii.eqb_spec nl a) as [<- |]; [done|]. destruct (Ascii.eqb_spec cr a) as [<- |]; done.
Qed.

(** ** Verbatim text *)

Lemma pa_vstring_run t u s : t ≠ "" → sforall verb_char t = true → ends verb_char u →
  parses (λ _, p_vstring) t u s (λ a, a = NString t) s.
Proof.
  intros Hn Ht Hu. apply pa_alt_l. eapply pa_bind0; [by eapply pa_run1; auto using fits_verbc|].
  intros x ->. by apply pa_ret.
Qed.
Lemma pa_vstring_brace u s : starts "}}" u = false → parses (λ _, p_vstring) "}" u s (λ a, a = NString "}") s.
Proof.
  intros Hs. eapply pa_alt_r.
  - apply re_bind. by eapply re_run1; auto using fits_verbc.
  - intros c Hc. destruct (plit_yes "}" u c s eq_refl Hc) as (c' & H1 & H2 & H3 & H4).
    exists (NString "}"), c'. split_and!; [|done|done]. apply ev_const. unfold ptext, pbind, pnot, pret.
    rewrite H1, (plit_no "}}") by (done || by rewrite H3). by rewrite H4.
Qed.
Lemma re_vstring u s : ends verb_char u → (starts "}" u = true → starts "}}}" u = true) →
  refuses (λ _, p_vstring) u s s.
Proof.
  intros Hu Hs. eapply re_alt.
  - apply re_bind. by eapply re_run1; auto using fits_verbc.
  - destruct (starts "}" u) eqn:E.
    + destruct u as [|a u]; [done|]. assert (starts "}}" u = true) as H2.
      { specialize (Hs eq_refl). unfold starts in *. cbn [has_prefix] in Hs.
        apply andb_true_iff in Hs. apply Hs. }
      assert (a = "}"%char) as ->.
      { unfold starts in E. cbn [has_prefix] in E. apply andb_true_iff in E as [E _]. by apply Ascii.eqb_eq in E as ->. }
      intros c Hc. apply ev_const. unfold ptext, pbind, pnot, pret.
      destruct (plit_yes "}" u c s eq_refl Hc) as (c' & -> & _ & H3 & _).
      assert (∃ v, u = "}}" +:+ v) as [v ->].
      { unfold starts in H2. destruct u as [|x [|y v]]; cbn [has_prefix] in H2; [done|by rewrite andb_false_r in H2|].
        rewrite andb_true_r in H2. apply andb_true_iff in H2 as [H4 H5].
        apply Ascii.eqb_eq in H4 as <-. apply Ascii.eqb_eq in H5 as <-. by exists v. }
      destruct (plit_yes "}}" v c' s eq_refl H3) as (c2 & -> & _). done.
    + apply re_bind. intros c Hc. apply ev_const. unfold ptext, pbind. by rewrite (plit_no "}") by (done || by rewrite Hc).
Qed.

Lemma pa_vpieces ts w u : vpieces ts w u → ∀ s,
  parses (λ _, pmany p_vstring) w u s (λ l, l = map NString ts) s.
Proof.
  induction 1 as [u Hu Hs|t ts w u Hn Ht He Hv IH|ts w u Hs Hv IH]; intros s.
  - apply (pa_many_nil (λ _, p_vstring)); [by apply re_vstring|done].
  - eapply (pa_many_cons (λ _, p_vstring)); [done|by apply pa_vstring_run|by apply IH|]. by intros a l -> ->.
  - change (String "}" w) with ("}" +:+ w).
    eapply (pa_many_cons (λ _, p_vstring)); [done|by apply pa_vstring_brace|by apply IH|]. by intros a l -> ->.
Qed.

(** The indentation of a block line. *)
Lemma pa_indent i u s : sforall blank i = true → ends blank u →
  parses (λ _, p_indent) i u s (λ t, t = sdrop (default (String.length i) s) i) (Some (default (String.length i) s)).
Proof.
  intros Hi Hu c Hc. destruct (pa_run blanks blank i u s flat_blanks fits_blank Hi Hu c Hc) as (t & c' & [n H1] & H2 & ->).
  specialize (H1 n ltac:(lia)). eexists _, c'. split_and!; [|done|reflexivity]. apply ev_const.
  unfold p_indent, p_blanks. rewrite H1. done.
Qed.

Lemma break_ends_blank b u : is_break b → ends blank (b +:+ u).
Proof. by intros [->| ->]. Qed.

Lemma pa_clear u s (R : unit → Prop) : R tt → parses (λ _, p_clear) "" u s R None.
Proof. intros H c Hc. exists tt, c. split_and!; [by apply ev_const|done|done]. Qed.

Section Block.
  Variable wd : nat → parser node.
  (** The line that closes a block. *)
  Lemma re_block_line t u s : sforall blank t = true → ends blank u → no_break u → (∀ s, refuses wd u s s) →
    ∃ s', refuses (λ n, p_block_line (wd n)) (t +:+ u) s s'.
  Proof.
    intros Ht Hu Hb Hw. eexists. unfold p_block_line.
    eapply re_bind2; [by apply pa_indent|]. intros x _.
    eapply (re_bind2 (λ n, pmany (wd n)) (λ n ws, p_break;~ pret (NString x :: ws)) "" u _ _ _ (λ _, True)).
    - eapply (pa_many_nil wd); [apply Hw|done].
    - intros l _. apply re_bind. by apply re_break.
  Qed.

  Lemma pa_block b w t u s s' (R : list (list node) → Prop) : is_break b → sforall blank t = true → ends blank u →
    parses (λ n, pmany (p_block_line (wd n))) w (t +:+ u) s R s' →
    parses (λ n, p_block (wd n)) (b +:+ w +:+ t) u s R None.
  Proof.
    intros Hb Ht Hu Hl. unfold p_block.
    eapply pa_bind; [by apply pa_break|intros _ _].
    eapply pa_bind; [exact Hl|intros ls Hls].
    eapply pa_bind0; [by apply pa_blanks|intros _ _].
    eapply pa_bind0; [by apply (pa_clear _ _ (λ _, True))|intros _ _]. by apply pa_ret.
  Qed.
End Block.

Lemma pa_vlines s ls w u : vlines s ls w u → (∀ s, ∃ s', refuses (λ n : nat, p_block_line p_vstring) u s s') →
  ∃ s', parses (λ n : nat, pmany (p_block_line p_vstring)) w u s (λ l, l = ls) s'.
Proof.
  intros H Hu. induction H as [s u|s i ts w b ls r u k Hi He Hv Hb Hk Hl IH].
  - destruct (Hu s) as [s' Hs]. exists s'. by apply pa_many_nil.
  - destruct (IH Hu) as [s' IH']. exists s'.
    assert (i +:+ w +:+ b +:+ r = (i +:+ w +:+ b) +:+ r) as -> by by rewrite !sapp_assoc.
    eapply (pa_many_cons _ _ _ _ _ _ _ (λ l, l = NString (sdrop k i) :: map NString ts));
      [|  |exact IH'|by intros ? ? -> ->].
    + apply app_ne_r, app_ne_r. by apply break_ne.
    + unfold p_block_line. eapply pa_bind; [apply pa_indent; [done|by rewrite sapp_assoc]|intros t' ->].
      eapply pa_bind; [by apply pa_vpieces|intros ws ->].
      eapply pa_bind0; [by apply pa_break|intros _ _]. rewrite <- Hk. by apply pa_ret.
Qed.

(** ** Where words do not start *)

Lemma stop0_facts u : stop0 u → ends text_char u ∧ no_comment u ∧ starts "\" u = false ∧ starts "{" u = false ∧ ends blank u.
Proof.
  unfold stop0. destruct u as [|a u]; [intros _; split_and!; try done; by apply (no_comment_intro "")|].
  intros H. assert (brk a = true ∨ a = "}"%char) as H' by done. clear H.
  assert (text_char a = false) as H1.
  { destruct H' as [H| ->]; [|done]. unfold text_char. rewrite H. by rewrite andb_false_r. }
  assert (blank a = false) as H2.
  { destruct H' as [H| ->]; [|done]. unfold blank. destruct (Ascii.eqb_spec a " ") as [-> |]; [done|].
    destruct (Ascii.eqb_spec a "009") as [-> |]; done. }
  assert (Ascii.eqb "\" a = false) as H3.
  { destruct H' as [H| ->]; [|done]. destruct (Ascii.eqb_spec "\" a) as [<- |]; done. }
  assert (Ascii.eqb "{" a = false) as H4.
  { destruct H' as [H| ->]; [|done]. destruct (Ascii.eqb_spec "{" a) as [<- |]; done. }
  split_and!; [done| |..].
  - apply (no_comment_intro ""); [done|done|]. unfold starts. cbn [has_prefix append]. by rewrite H4.
  - unfold starts. cbn [has_prefix]. by rewrite H3.
  - unfold starts. cbn [has_prefix]. by rewrite H4.
  - done.
Qed.

Definition p_core (n : nat) : parser node :=
  palt p_string (palt (p_invoke (p_comment n) (p_word n)) (p_interp (p_word n))).

Lemma re_string u s : ends text_char u → starts "\" u = false → refuses (λ _, p_string) u s s.
Proof.
  intros Hu Hs. eapply re_alt.
  - apply re_bind. eapply re_run1; auto using fits_textc.
  - apply re_bind. intros c Hc. apply ev_const. unfold ptext, pbind. by rewrite (plit_no "\") by (done || by rewrite Hc).
Qed.
Lemma re_invoke u s : starts "\" u = false → refuses (λ n, p_invoke (p_comment n) (p_word n)) u s s.
Proof.
  intros Hs c Hc. exists 0. intros n _. unfold p_invoke, pbind. by rewrite (plit_no "\") by (done || by rewrite Hc).
Qed.
Lemma re_core u s : stop0 u → refuses p_core u s s.
Proof.
  intros (H1 & H2 & H3 & H4 & _)%stop0_facts.
  eapply re_alt; [by apply re_string|]. eapply re_alt; [by apply re_invoke|].
  apply re_bind. by apply re_lit.
Qed.

Lemma re_word u s : stop u → refuses p_word u s s.
Proof.
  intros [v H|w v Hw H]; apply re_shift.
  - change (λ n, p_word (S n)) with (λ n, pbind (popt (p_comment n)) (λ _, v <~ p_core n; popt (p_comment n);~ pret v)).
    rewrite <- (sapp_nil_l v). pose proof (stop0_facts v H) as (H1 & H2 & _).
    eapply re_bind2; [eapply (pa_opt_none _ _ _ (λ _, True)); [by apply re_comment|done]|intros _ _].
    apply re_bind. by apply re_core.
  - change (λ n, p_word (S n)) with (λ n, pbind (popt (p_comment n)) (λ _, v <~ p_core n; popt (p_comment n);~ pret v)).
    eapply re_bind2; [eapply (pa_opt_some _ _ _ _ _ (λ _, True)); [by apply pa_comment|done]|intros _ _].
    apply re_bind. by apply re_core.
Qed.

Lemma re_line u s : line_stop u → refuses (λ n, p_line (p_word n)) u s s.
Proof.
  intros [t v Ht He Hs]. eapply re_bind2; [by apply pa_blanks|intros _ _]. by apply re_many1, re_word.
Qed.

(** ** Words *)

Scheme word_mind := Minimality for word Sort Prop
  with core_mind := Minimality for core Sort Prop
  with arguments_mind := Minimality for arguments Sort Prop
  with arg_mind := Minimality for arg Sort Prop
  with blines_mind := Minimality for blines Sort Prop
  with words_mind := Minimality for words Sort Prop
  with wrapped_mind := Minimality for wrapped Sort Prop
  with wrest_mind := Minimality for wrest Sort Prop
  with line_mind := Minimality for line Sort Prop
  with para_mind := Minimality for para Sort Prop
  with paras_mind := Minimality for paras Sort Prop.
Combined Scheme grammar_ind from word_mind, core_mind, arguments_mind, arg_mind, blines_mind, words_mind,
  wrapped_mind, wrest_mind, line_mind, para_mind, paras_mind.

Definition rn (nd a : node) : Prop := erase a = nd.
Definition rl (ns l : list node) : Prop := map erase l = ns.
Definition rp (ns l : list (list node)) : Prop := map (map erase) l = ns.
Definition rd (ns l : list (list (list node))) : Prop := map (map (map erase)) l = ns.

Definition p_args (n : nat) : parser (list node) := pmany (p_argument (p_comment n) (p_word n)).

Lemma pa_opt_comment q u s : opt_comment q u → parses (λ n, popt (p_comment n)) q u s (λ _, True) s.
Proof.
  intros [v H|w v H].
  - apply pa_opt_none; [by apply re_comment|done].
  - eapply pa_opt_some; [by apply pa_comment|done].
Qed.

Lemma pa_word s nd p w q u s' : opt_comment p (w +:+ q +:+ u) → parses p_core w (q +:+ u) s (rn nd) s' →
  opt_comment q u → parses p_word (p +:+ w +:+ q) u s (rn nd) s'.
Proof.
  intros Hp Hc Hq. apply pa_shift.
  change (λ n, p_word (S n)) with (λ n, pbind (popt (p_comment n)) (λ _, v <~ p_core n; popt (p_comment n);~ pret v)).
  eapply pa_bind; [rewrite sapp_assoc; by apply pa_opt_comment|intros _ _].
  eapply pa_bind; [done|intros v Hv].
  eapply pa_bind0; [by apply pa_opt_comment|intros _ _]. by apply pa_ret.
Qed.

Lemma pa_core_text t u s : t ≠ "" → sforall text_char t = true → ends text_char u →
  parses p_core t u s (rn (NString t)) s.
Proof.
  intros Hn Ht Hu. apply pa_alt_l, pa_alt_l. eapply pa_bind0; [by eapply pa_run1; auto using fits_textc|].
  intros x ->. by apply pa_ret.
Qed.
Lemma pa_core_escape a u s : special a = true →
  parses p_core (String "\" (String a "")) u s (rn (NString (String a ""))) s.
Proof.
  intros Ha. apply pa_alt_l. eapply pa_alt_r.
  - apply re_bind. by eapply re_run1; auto using fits_textc.
  - intros c Hc. destruct (plit_yes "\" (String a u) c s eq_refl Hc) as (c' & H1 & H2 & H3 & H4).
    pose proof (pclass_spec escc c' s flat_escc) as Hs. rewrite H3, fits_escc, Ha in Hs.
    assert (byte a < 128)%N as Hb.
    { rewrite <- fits_escc in Ha. unfold fits in Ha. destruct (N.ltb_spec (byte a) 128); done. }
    assert (c_rest c' ≠ "") as Hm by by rewrite H3.
    exists (NString (String a "")), (next c'). split_and!; [|by rewrite next_rest, (cur_w_ascii _ _ _ H3), H3|done].
    apply ev_const. unfold pbind, pret, ptext. rewrite H1, Hs. f_equal. f_equal.
    rewrite (slice_app _ c') by (done || by apply reach_next). rewrite H4. simpl.
    unfold slice. rewrite next_off, (cur_w_ascii _ _ _ H3), H3 by done.
    replace (c_off c' + 1 - c_off c') with 1 by lia. done.
Qed.
Lemma name_no_special f v : name_ok f → starts "\" (f +:+ v) = false.
Proof.
  intros [Hn Hf]. destruct f as [|a f]; [done|]. simpl in Hf. apply andb_true_iff in Hf as [Ha _].
  unfold starts. cbn [has_prefix append]. destruct (Ascii.eqb_spec "\" a) as [<- |]; done.
Qed.

Lemma re_string_name f v s : name_ok f → refuses (λ _, p_string) (String "\" (f +:+ v)) s s.
Proof.
  intros [Hn Hf]. eapply re_alt.
  - apply re_bind. by eapply re_run1; auto using fits_textc.
  - apply re_bind. intros c Hc. destruct (plit_yes "\" (f +:+ v) c s eq_refl Hc) as (c' & H1 & H2 & H3 & H4).
    apply ev_const. unfold ptext, pbind. rewrite H1.
    pose proof (pclass_spec escc c' s flat_escc) as Hs. rewrite H3 in Hs.
    destruct f as [|a f]; [done|]. cbn [append] in Hs. simpl in Hf. apply andb_true_iff in Hf as [Ha _].
    assert (special a = false) as Hsp.
    { unfold special. destruct (Ascii.eqb_spec a "\") as [-> |]; [done|].
      destruct (Ascii.eqb_spec a "{") as [-> |]; [done|]. destruct (Ascii.eqb_spec a "}") as [-> |]; done. }
    rewrite fits_escc, Hsp in Hs. by rewrite Hs.
Qed.

Lemma pa_core_invoke f v u s s' args : name_ok f → ends name_char (v +:+ u) → parses p_args v u s (rl args) s' →
  parses p_core (String "\" (f +:+ v)) u s (rn (NInvoke f args noloc)) s'.
Proof.
  intros Hf He Ha. eapply pa_alt_r.
  { cbn [append]. rewrite sapp_assoc. by apply re_string_name. }
  apply pa_alt_l. intros c Hc.
  assert (parses (λ n, plit "\";~ fn <~ ptext (pmany1 (pclass namec)); args <~ p_args n;
    pret (NInvoke fn args (cur_loc c))) ("\" +:+ f +:+ v) u s (rn (NInvoke f args noloc)) s') as H.
  { eapply pa_bind; [by apply pa_lit|intros _ _].
    destruct Hf as [Hn Hf].
    eapply pa_bind; [by eapply pa_run1; auto using fits_name|intros x ->].
    eapply pa_bind0; [exact Ha|intros l Hl]. apply pa_ret. unfold rn. simpl. by rewrite Hl. }
  apply (H c Hc).
Qed.

Lemma pa_core_interp nd w u s s' : parses p_word w ("}" +:+ u) s (rn nd) s' →
  parses p_core ("{" +:+ w +:+ "}") u s (rn nd) s'.
Proof.
  intros Hw. eapply pa_alt_r; [by apply re_string|]. eapply pa_alt_r; [by apply re_invoke|].
  unfold p_interp. eapply pa_bind; [by apply pa_lit|intros _ _].
  eapply (pa_bind _ _ _ _ _ _ _ _ (λ o, ∃ a, o = Some a ∧ rn nd a)); [eapply pa_opt_some; [done|eauto]|].
  intros o (a & -> & Ha). eapply pa_bind0; [by apply pa_lit|intros _ _]. by apply pa_ret.
Qed.
Lemma pa_core_empty u s : parses p_core "{}" u s (rn (NSeq [])) s.
Proof.
  eapply pa_alt_r; [by apply re_string|]. eapply pa_alt_r; [by apply re_invoke|].
  unfold p_interp. change "{}" with ("{" +:+ "" +:+ "}"). eapply pa_bind; [by apply pa_lit|intros _ _].
  eapply (pa_bind _ _ _ _ _ _ _ _ (λ o, o = None)).
  - apply pa_opt_none; [|done]. apply re_word. by apply stop_now; right.
  - intros o ->. eapply pa_bind0; [by apply pa_lit|intros _ _]. by apply pa_ret.
Qed.

(** ** Arguments *)

Lemma re_pline u s : line_stop u → refuses (λ n, l <~ p_line (p_word n); popt p_break;~ pret l) u s s.
Proof. intros H. by apply re_bind, re_line. Qed.
Lemma re_para u s : line_stop u → refuses (λ n, p <~ p_para (p_word n); pmany (p_spacing (p_comment n));~ pret p) u s s.
Proof. intros H. by apply re_bind, re_many1, re_pline. Qed.

Lemma brace_line_stop u : line_stop ("}" +:+ u).
Proof. apply (line_stop_intro ""); [done|done|]. by apply stop_now; right. Qed.
Lemma brace_no_break u : no_break ("}" +:+ u).
Proof. done. Qed.

Lemma re_verb u s : starts "{{" u = false → refuses (λ _, p_verb_arg) u s s.
Proof.
  intros H. apply re_bind, re_lit; [done|]. unfold starts in *. destruct u as [|a [|b u]]; [done| |].
  - cbn [has_prefix]. by rewrite andb_false_r.
  - cbn [has_prefix] in *. rewrite andb_true_r in H. by rewrite andb_assoc, H.
Qed.
Lemma re_pre u s : starts "{{" u = false → refuses (λ n, p_pre_arg (p_word n)) u s s.
Proof. intros H. by apply re_bind, re_lit. Qed.

Definition p_argn (n : nat) : parser node := p_argument (p_comment n) (p_word n).

Lemma pa_arg_plain w u s s' (R : node → Prop) : starts "{{" (w +:+ u) = false →
  parses (λ n, p_arg (p_comment n) (p_word n)) w u s R s' → parses p_argn w u s R s'.
Proof. intros H Hp. eapply pa_alt_r; [by apply re_verb|]. eapply pa_alt_r; [by apply re_pre|done]. Qed.

Lemma pa_arg_body w u s s' (R : option node → Prop) (R' : node → Prop) :
  parses (λ n, p_arg_body (p_comment n) (p_word n)) w ("}" +:+ u) s R s' →
  (∀ o, R o → R' (default (NString "") o)) →
  parses (λ n, p_arg (p_comment n) (p_word n)) ("{" +:+ w +:+ "}") u s R' s'.
Proof.
  intros Hb HR. unfold p_arg. eapply pa_bind; [by apply pa_lit|intros _ _].
  eapply (pa_bind _ _ _ _ _ _ _ _ (λ o, R (mjoin o))); [eapply pa_opt_some; [done|done]|].
  intros o Ho. eapply pa_bind0; [by apply pa_lit|intros _ _]. apply pa_ret. auto.
Qed.

Lemma re_wrapped u s : stop u → refuses (λ n, ws <~ p_wrapped (p_word n); pret (Some (NSeq ws))) u s s.
Proof. intros H. by apply re_bind, re_bind, re_word. Qed.

Lemma pa_arg_empty u s : parses p_argn "{}" u s (rn (NString "")) s.
Proof.
  apply pa_arg_plain; [done|]. apply (pa_arg_body "" u s s (λ o, o = None)); [|by intros o ->].
  eapply pa_alt_r; [by apply re_wrapped, stop_now; right|]. eapply pa_alt_r.
  - apply re_bind. change ("" +:+ "}" +:+ u) with ("" +:+ ("}" +:+ u)). eapply re_bind2.
    + eapply (pa_spacing "" _ s); [constructor|by split; [|apply brace_no_comment]].
    + intros _ _. by apply re_many1, re_para, brace_line_stop.
  - eapply pa_bind0; [|intros _ _; by apply pa_ret].
    eapply (pa_spacing "" _ s); [constructor|by split; [|apply brace_no_comment]].
Qed.

Lemma pa_arg_line w u s s' ws : (starts "{" w = true → starts "{{" w = false ∧ no_break (sdrop 1 w +:+ "}")) →
  parses (λ n, p_wrapped (p_word n)) w ("}" +:+ u) s (rl ws) s' →
  parses p_argn ("{" +:+ w +:+ "}") u s (rn (NSeq ws)) s'.
Proof.
  intros Hs Hw. assert (parses (λ n, p_arg (p_comment n) (p_word n)) ("{" +:+ w +:+ "}") u s (rn (NSeq ws)) s') as Hp.
  { apply (pa_arg_body w u s s' (λ o, ∃ l, o = Some (NSeq l) ∧ rl ws l)).
    - apply pa_alt_l. eapply pa_bind0; [done|intros l Hl]. apply pa_ret. eauto.
    - intros o (l & -> & Hl). unfold rn. simpl. by rewrite Hl. }
  destruct (starts "{" w) eqn:E.
  - destruct (Hs eq_refl) as [H1 H2]. destruct w as [|a w]; [done|]. assert (a = "{"%char) as ->.
    { unfold starts in E. cbn [has_prefix] in E. apply andb_true_iff in E as [E _]. by apply Ascii.eqb_eq in E as ->. }
    eapply pa_alt_r.
    { apply re_bind, re_lit; [done|]. unfold starts in *. cbn [append has_prefix] in *. rewrite !Ascii.eqb_refl in *.
      destruct w as [|x w]; [done|]. cbn [append has_prefix] in *. rewrite andb_true_r in *. cbn [andb] in *. by rewrite H1. }
    eapply pa_alt_r; [|exact Hp].
    change (("{" +:+ String "{" w +:+ "}") +:+ u) with ("{{" +:+ (w +:+ "}") +:+ u).
    eapply re_bind2; [by apply pa_lit|intros _ _]. apply re_bind, re_bind, re_break.
    simpl in H2. destruct w as [|x [|y w]]; [done| |done].
    destruct H2 as [H2 H3]. split; [done|]. unfold starts in *. cbn [append has_prefix nls] in *.
    by rewrite !andb_true_r in *.
  - apply pa_arg_plain; [|done].
    unfold starts in *. cbn [append has_prefix]. rewrite Ascii.eqb_refl. destruct w as [|a w]; [done|].
    cbn [append has_prefix] in *. by destruct (Ascii.eqb "{" a).
Qed.

Lemma erase_paras ps : map erase (map NPara ps) = map NPara (map (map (map erase)) ps).
Proof. rewrite !map_map. by apply map_ext. Qed.

Lemma break_stop0 b w : is_break b → stop0 (b +:+ w).
Proof. intros [->| ->]; simpl; left; done. Qed.

Lemma pa_arg_paras b sp w t u s s' ps : is_break b → spacing sp → spacing_end (w +:+ t +:+ "}" +:+ u) →
  parses (λ n, pmany1 (p <~ p_para (p_word n); pmany (p_spacing (p_comment n));~ pret p))
    w (t +:+ "}" +:+ u) s (rd ps) s' → sforall blank t = true →
  parses p_argn ("{" +:+ b +:+ sp +:+ w +:+ t +:+ "}") u s (rn (NSeq (map NPara ps))) s'.
Proof.
  intros Hb Hsp He Hp Ht. apply pa_arg_plain.
  { by destruct Hb as [->| ->]. }
  replace ("{" +:+ b +:+ sp +:+ w +:+ t +:+ "}") with ("{" +:+ (b +:+ sp +:+ w +:+ t) +:+ "}")
    by by rewrite !sapp_assoc.
  apply (pa_arg_body _ u s s' (λ o, ∃ l, o = Some (NSeq (map NPara l)) ∧ rd ps l)).
  - eapply pa_alt_r; [rewrite !sapp_assoc; by apply re_wrapped, stop_now, break_stop0|].
    apply pa_alt_l. replace (b +:+ sp +:+ w +:+ t) with (((b +:+ sp) +:+ w) +:+ t) by by rewrite !sapp_assoc.
    eapply pa_bind.
    + unfold p_paras. eapply pa_bind; [|intros _ _; exact Hp].
      apply pa_spacing; [by constructor|done].
    + intros l Hl. eapply pa_bind0; [by apply pa_blanks|intros _ _]. apply pa_ret. eauto.
  - intros o (l & -> & Hl). unfold rn. simpl. rewrite erase_paras. unfold rd in Hl. by rewrite Hl.
Qed.

Lemma vpieces_no_break ts w u : vpieces ts w u → no_break u → no_break (w +:+ u).
Proof.
  intros [|t ts' w' u' Hn Ht|] Hb; [done| |done].
  destruct t as [|a t]; [done|]. simpl in Ht. apply andb_true_iff in Ht as [Ha _].
  unfold verb_char in Ha. apply andb_true_iff in Ha as [_ Ha].
  unfold no_break, starts. cbn [append has_prefix nls].
  destruct (Ascii.eqb_spec nl a) as [<- |]; [done|]. by destruct (Ascii.eqb_spec cr a) as [<- |].
Qed.

Lemma map_erase_strings ts : map erase (map NString ts) = map NString ts.
Proof. rewrite map_map. by apply map_ext. Qed.

Lemma pa_arg_verbatim ts w u s : vpieces ts w ("}}}" +:+ u) →
  parses p_argn ("{{{" +:+ w +:+ "}}}") u s (rn (NSeq (map NString ts))) s.
Proof.
  intros H. apply pa_alt_l. eapply pa_bind; [by apply pa_lit|intros _ _].
  eapply pa_bind; [|intros nd Hnd; eapply pa_bind0; [by apply pa_lit|intros _ _; by apply pa_ret]].
  eapply pa_alt_r.
  - apply re_bind, re_bind, re_break. by eapply vpieces_no_break.
  - eapply pa_bind0; [by apply pa_vpieces|intros l ->]. apply pa_ret. unfold rn. simpl. by rewrite map_erase_strings.
Qed.

Lemma vlines_erase s ls w u : vlines s ls w u → map (map erase) ls = ls.
Proof. induction 1 as [|s i ts w b ls r u k Hi He Hv Hb Hk Hl IH]; [done|]. simpl. by rewrite map_erase_strings, IH. Qed.

Lemma pa_arg_vblock b ls w t u s : is_break b → vlines s ls w (t +:+ "}}}" +:+ u) → sforall blank t = true →
  parses p_argn ("{{{" +:+ b +:+ w +:+ t +:+ "}}}") u s (rn (NPre ls)) None.
Proof.
  intros Hb Hl Ht. apply pa_alt_l. eapply pa_bind; [by apply pa_lit|intros _ _].
  replace (b +:+ w +:+ t +:+ "}}}") with ((b +:+ w +:+ t) +:+ "}}}") by by rewrite !sapp_assoc.
  destruct (pa_vlines _ _ _ _ Hl) as [s' Hp].
  { intros s1. apply (re_block_line (λ _, p_vstring)); [done|done|done|]. intros s2. by apply re_vstring. }
  eapply pa_bind; [|intros nd Hnd; eapply pa_bind0; [by apply pa_lit|intros _ _; by apply pa_ret]].
  apply pa_alt_l. eapply pa_bind0; [by eapply (pa_block (λ _, p_vstring))|].
  intros l ->. apply pa_ret. unfold rn. simpl. f_equal. by eapply vlines_erase.
Qed.

Lemma pa_arg_block b ls w t u s s' : is_break b → sforall blank t = true →
  parses (λ n, pmany (p_block_line (p_word n))) w (t +:+ "}}" +:+ u) s (rp ls) s' →
  parses p_argn ("{{" +:+ b +:+ w +:+ t +:+ "}}") u s (rn (NPre ls)) None.
Proof.
  intros Hb Ht Hp. eapply pa_alt_r.
  { apply re_bind, re_lit; [done|]. by destruct Hb as [->| ->]. }
  apply pa_alt_l. eapply pa_bind; [by apply pa_lit|intros _ _].
  replace (b +:+ w +:+ t +:+ "}}") with ((b +:+ w +:+ t) +:+ "}}") by by rewrite !sapp_assoc.
  eapply pa_bind; [by eapply (pa_block p_word)|].
  intros l Hl. eapply pa_bind0; [by apply pa_lit|intros _ _]. apply pa_ret. unfold rn. simpl. f_equal. exact Hl.
Qed.

Lemma re_argument u s : starts "{" u = false → refuses p_argn u s s.
Proof.
  intros H. assert (starts "{{" u = false) as H2.
  { unfold starts in *. destruct u as [|a u]; [done|]. cbn [has_prefix] in *. rewrite andb_true_r in H. by rewrite H. }
  eapply re_alt; [by apply re_verb|]. eapply re_alt; [by apply re_pre|]. by apply re_bind, re_lit.
Qed.

(** ** All of it *)

Lemma re_split u s : no_break u → refuses (λ _, p_split) u s s.
Proof. intros H. by apply re_bind, re_break. Qed.

Lemma pa_line t w u s s' l : sforall blank t = true → ends blank (w +:+ u) → l ≠ [] →
  parses (λ n, pmany (p_word n)) w u s (rl l) s' → parses (λ n, p_line (p_word n)) (t +:+ w) u s (rl l) s'.
Proof.
  intros Ht He Hl Hw. eapply pa_bind; [by apply pa_blanks|intros _ _].
  apply pa_many1; [|done]. intros x Hx ->. by rewrite <- Hx in Hl.
Qed.

Lemma grammar_parses :
  (∀ s nd w u s', word s nd w u s' → w ≠ "" ∧ parses p_word w u s (rn nd) s') ∧
  (∀ s nd w u s', core s nd w u s' → w ≠ "" ∧ parses p_core w u s (rn nd) s') ∧
  (∀ s ns w u s', arguments s ns w u s' → parses p_args w u s (rl ns) s') ∧
  (∀ s nd w u s', arg s nd w u s' → w ≠ "" ∧ parses p_argn w u s (rn nd) s') ∧
  (∀ s ls w u s', blines s ls w u s' → (∀ s, ∃ s', refuses (λ n, p_block_line (p_word n)) u s s') →
     ∃ s2, parses (λ n, pmany (p_block_line (p_word n))) w u s (rp ls) s2) ∧
  (∀ s ns w u s', words s ns w u s' → parses (λ n, pmany (p_word n)) w u s (rl ns) s') ∧
  (∀ s ns w u s', wrapped s ns w u s' → parses (λ n, p_wrapped (p_word n)) w u s (rl ns) s') ∧
  (∀ s ns w u s', wrest s ns w u s' → parses (λ n, pmany (palt (p_word n) p_split)) w u s (rl ns) s') ∧
  (∀ s ns w u s', line s ns w u s' → w ≠ "" ∧ parses (λ n, p_line (p_word n)) w u s (rl ns) s') ∧
  (∀ s ls w u s', para s ls w u s' → w ≠ "" ∧ ls ≠ [] ∧
     parses (λ n, pmany (l <~ p_line (p_word n); popt p_break;~ pret l)) w u s (rp ls) s') ∧
  (∀ s ps w u s', paras s ps w u s' → ps ≠ [] ∧
     parses (λ n, pmany (p <~ p_para (p_word n); pmany (p_spacing (p_comment n));~ pret p)) w u s (rd ps) s').
Proof.
  apply grammar_ind.
  - intros s nd p w q u s' Hp _ [Hn Hw] Hq. split; [by apply app_ne_r, app_ne_l|by eapply pa_word].
  - intros s t u Hn Ht He. split; [done|by apply pa_core_text].
  - intros s a u Ha. split; [done|by apply pa_core_escape].
  - intros s f args v u s' Hf He _ Ha. split; [done|by apply pa_core_invoke].
  - intros s nd w u s' _ [_ Hw]. split; [done|by apply pa_core_interp].
  - intros s u. split; [done|by apply pa_core_empty].
  - intros s u H. apply (pa_many_nil p_argn); [by apply re_argument|done].
  - intros s nd w l v u s1 s2 _ [Hn Hw] _ Hv. eapply (pa_many_cons p_argn); [done|done|exact Hv|].
    intros a l' Ha Hl. unfold rl, rn in *. simpl. by rewrite Ha, Hl.
  - intros s u. split; [done|by apply pa_arg_empty].
  - intros s ws w u s' Hs _ Hw. split; [done|by apply pa_arg_line].
  - intros s b sp ps w t u s' Hb Hsp He _ [Hn Hp] Ht. split; [done|]. apply pa_arg_paras; [done..| |done].
    apply pa_many1; [|done]. intros x Hx ->. by rewrite <- Hx in Hn.
  - intros s ts w u H. split; [done|by apply pa_arg_verbatim].
  - intros s b ls w t u Hb Hl Ht. split; [done|by apply pa_arg_vblock].
  - intros s b ls w t u s' Hb _ Hl Ht. split; [done|]. destruct Hl as [s2 Hl].
    { intros s1. apply re_block_line; [done..|]. intros s2. apply re_word, stop_now. by right. }
    by eapply pa_arg_block.
  - intros s u Hu. destruct (Hu s) as [s' H]. exists s'. by apply (pa_many_nil (λ n, p_block_line (p_word n))).
  - intros s i ws w b ls r u k s1 s2 Hi He Hk _ Hw Hb _ Hl Hu. destruct (Hl Hu) as [s3 H3]. exists s3.
    assert (i +:+ w +:+ b +:+ r = (i +:+ w +:+ b) +:+ r) as -> by by rewrite !sapp_assoc.
    eapply (pa_many_cons _ _ _ _ _ _ _ (rl (NString (sdrop k i) :: ws)));
      [| |exact H3|intros a l Ha Hl2; unfold rp, rl in *; simpl; by rewrite Ha, Hl2].
    + apply app_ne_r, app_ne_r. by apply break_ne.
    + unfold p_block_line. eapply pa_bind; [apply pa_indent; [done|by rewrite sapp_assoc]|intros t' ->].
      rewrite <- Hk. eapply pa_bind; [exact Hw|intros l Hl2].
      eapply pa_bind0; [by apply pa_break|intros _ _]. apply pa_ret. unfold rl in *. simpl. by rewrite Hl2.
  - intros s u H. apply (pa_many_nil p_word); [by apply re_word|done].
  - intros s nd w l v u s1 s2 _ [Hn Hw] _ Hv. eapply (pa_many_cons p_word); [done|done|exact Hv|].
    intros a l' Ha Hl. unfold rl, rn in *. simpl. by rewrite Ha, Hl.
  - intros s nd w l v u s1 s2 _ [Hn Hw] _ Hv. eapply pa_bind; [done|intros a Ha].
    eapply pa_bind0; [done|intros l' Hl]. apply pa_ret. unfold rl, rn in *. simpl. by rewrite Ha, Hl.
  - intros s u Hs Hb. apply (pa_many_nil (λ n, palt (p_word n) p_split)); [|done].
    eapply re_alt; [by apply re_word|by apply re_split].
  - intros s nd w l v u s1 s2 _ [Hn Hw] _ Hv. eapply (pa_many_cons (λ n, palt (p_word n) p_split)); [done| |exact Hv|].
    + by apply pa_alt_l.
    + intros a l' Ha Hl. unfold rl, rn in *. simpl. by rewrite Ha, Hl.
  - intros s b t l v u s2 Hb Ht He _ Hv.
    assert (b +:+ t +:+ v = (b +:+ t) +:+ v) as -> by by rewrite !sapp_assoc.
    eapply (pa_many_cons (λ n, palt (p_word n) p_split) _ _ _ _ _ _ (λ a, a = NString " ")); [|  |exact Hv|].
    + by apply app_ne_l, break_ne.
    + eapply pa_alt_r; [rewrite sapp_assoc; by apply re_word, stop_now, break_stop0|].
      eapply pa_bind; [by apply pa_break|intros _ _]. eapply pa_bind0; [by apply pa_blanks|intros _ _]. by apply pa_ret.
    + intros a l' -> Hl. unfold rl in *. simpl. by rewrite Hl.
  - intros s t l w u s' Ht He Hl Hws Hw. split; [|by apply pa_line].
    inversion Hws as [|s0 nd w1 l1 v1 u1 s1 s2 Hw1]; subst; [done|].
    apply app_ne_r, app_ne_l. inversion Hw1 as [s3 nd3 p q w3 u3 s3' _ Hcore]; subst. apply app_ne_r, app_ne_l.
    inversion Hcore; done.
  - intros s l w b u s' _ [Hn Hl] Hb Hs. split_and!; [by apply app_ne_l|done|].
    rewrite <- (sapp_nil_r (w +:+ b)).
    eapply (pa_many_cons _ _ _ _ _ _ _ (rl l) (λ x, x = [])); [by apply app_ne_l| | |].
    + eapply pa_bind; [exact Hl|intros x Hx].
      eapply pa_bind0; [|intros _ _; by apply pa_ret].
      destruct Hb as [Hb|[-> Hb]].
      * by eapply (pa_opt_some _ _ _ _ _ (λ _, True)); [apply pa_break|].
      * by apply (pa_opt_none _ _ _ (λ _, True)); [apply re_break|].
    + apply pa_many_nil; [by apply re_pline|done].
    + intros a x Ha ->. unfold rp, rl in *. simpl. by rewrite Ha.
  - intros s l w b ls v u s1 s2 _ [Hn Hl] Hb _ (Hv & _ & Hp). split_and!; [by apply app_ne_l|done|].
    assert (w +:+ b +:+ v = (w +:+ b) +:+ v) as -> by by rewrite !sapp_assoc.
    eapply (pa_many_cons _ _ _ _ _ _ _ (rl l)); [by apply app_ne_l| |exact Hp|].
    + eapply pa_bind; [exact Hl|intros x Hx].
      eapply pa_bind0; [|intros _ _; by apply pa_ret].
      by eapply (pa_opt_some _ _ _ _ _ (λ _, True)); [apply pa_break|].
    + intros a x Ha Hx. unfold rp, rl in *. simpl. by rewrite Ha, Hx.
  - intros s p w sp u s' _ (Hn & Hp & Hw) Hsp He Hs. split; [done|].
    rewrite <- (sapp_nil_r (w +:+ sp)).
    eapply (pa_many_cons _ _ _ _ _ _ _ (rp p) (λ x, x = [])); [by apply app_ne_l| | |].
    + eapply pa_bind.
      * apply pa_many1; [|exact Hw]. intros x Hx ->. by rewrite <- Hx in Hp.
      * intros x Hx. eapply pa_bind0; [by apply pa_spacing|intros _ _]. by apply pa_ret.
    + apply pa_many_nil; [by apply re_para|done].
    + intros a x Ha ->. unfold rp, rd in *. simpl. by rewrite Ha.
  - intros s p w sp ps v u s1 s2 _ (Hn & Hp & Hw) Hsp He _ [_ Hv]. split; [done|].
    assert (w +:+ sp +:+ v = (w +:+ sp) +:+ v) as -> by by rewrite !sapp_assoc.
    eapply (pa_many_cons _ _ _ _ _ _ _ (rp p)); [by apply app_ne_l| |exact Hv|].
    + eapply pa_bind.
      * apply pa_many1; [|exact Hw]. intros x Hx ->. by rewrite <- Hx in Hp.
      * intros x Hx. eapply pa_bind0; [by apply pa_spacing|intros _ _]. by apply pa_ret.
    + intros a x Ha Hx. unfold rp, rd in *. simpl. by rewrite Ha, Hx.
Qed.

(** Every derivable document parses to its tree. *)
Lemma document_matches ps d : document ps d → ∃ ps', matches d ps' ∧ rd ps ps'.
Proof.
  intros [sp ps0 w s' Hsp He Hp]. destruct grammar_parses as (_ & _ & _ & _ & _ & _ & _ & _ & _ & _ & H).
  apply H in Hp as [Hn Hp].
  assert (parses p_document (sp +:+ w) "" None (rd ps0) s') as Hd.
  { unfold p_document, p_doc. eapply pa_bind0.
    - unfold p_paras. eapply pa_bind; [apply pa_spacing; [done|by rewrite sapp_nil_r]|intros _ _].
      apply pa_many1; [|exact Hp]. intros x Hx ->. by rewrite <- Hx in Hn.
    - intros x Hx. eapply (pa_bind0 _ _ _ _ _ _ _ (λ _, True)); [|intros _ _; by apply pa_ret].
      intros c Hc. exists tt, c. split_and!; [|done|done]. apply ev_const. unfold pnot, pany.
      assert (at_end c = true) as ->; [|done]. by apply at_end_spec. }
  destruct (Hd (origin (sp +:+ w))) as (x & c' & H1 & _ & H2).
  - unfold origin. by rewrite arrive_rest, sapp_nil_r.
  - exists x. split; [by exists c', s'|done].
Qed.
