(** Whatever is written as in Written.v is derived by the grammar. *)
From Coq Require Import Ascii String NArith Lia.
From stdpp Require Import base tactics relations strings numbers list.
From Verif Require Import GoBase Ast Utf8 Peg StrProofs PegBase Descent DescentProofs ParseSpec ParserMain
  Encoding Positions Runs Shape Grammar GrammarProofs GrammarParse Written.
Local Open Scope string_scope.
Local Open Scope list_scope.

(** ** Starts of words *)

(** A word starts here: text that is not blank, an escape or a brace. *)
Inductive fresh : string → Prop :=
| fresh_text a r : text_char a = true → blank a = false → fresh (String a r)
| fresh_escape r : fresh (String "\" r)
| fresh_invoke r : fresh (String "{" (String "\" r))
| fresh_empty r : fresh (String "{" (String "}" r)).

Lemma fresh_app w u : fresh w → fresh (w +:+ u).
Proof. intros [a r H1 H2|r|r|r]; by constructor. Qed.

Lemma text_char_facts a : text_char a = true → special a = false ∧ brk a = false.
Proof. unfold text_char. by destruct (special a), (brk a). Qed.
Lemma eqb_not (f : ascii → bool) x a : f x = true → f a = false → Ascii.eqb x a = false.
Proof. intros H1 H2. destruct (Ascii.eqb_spec x a) as [-> |]; congruence. Qed.

Lemma fresh_no_comment w : fresh w → no_comment w.
Proof.
  intros [a r H1 H2|r|r|r]; apply (no_comment_intro ""); try done.
  apply text_char_facts in H1 as [H1 _]. unfold starts. cbn [has_prefix append].
  by rewrite (eqb_not special "{" a).
Qed.
Lemma fresh_no_break w : fresh w → no_break w.
Proof.
  intros [a r H1 H2|r|r|r]; try done.
  apply text_char_facts in H1 as [_ H1]. unfold no_break, starts. cbn [has_prefix nls].
  by rewrite (eqb_not brk nl a), (eqb_not brk cr a).
Qed.
Lemma fresh_not_blank w : fresh w → ends blank w.
Proof. by intros [a r H1 H2|r|r|r]. Qed.

Lemma no_comment_blanks t u : sforall blank t = true → no_comment u → no_comment (t +:+ u).
Proof.
  intros Ht [t' u' H1 H2 H3]. rewrite <- sapp_assoc. apply no_comment_intro; [|done|done].
  by rewrite sforall_app, Ht.
Qed.

Lemma run_facts t : is_run (NString t) = true → t ≠ "" ∧ sforall text_char t = true.
Proof. by destruct t. Qed.

Lemma run_fresh t : is_run (NString t) = true → starts_blank [NString t] = false → fresh t.
Proof. destruct t as [|a t]; [done|]. simpl. rewrite andb_true_iff. intros [H1 _] H2. by constructor. Qed.

Lemma word_fresh b nd w : wword b nd w → starts_blank [nd] = false → fresh w.
Proof. intros Hw Hb. destruct Hw; [by apply run_fresh| | |]; by constructor. Qed.

Lemma word_ends b nd w u : wword b nd w → is_run nd = false → ends text_char (w +:+ u).
Proof. intros [b0 t H|b0 a H|b0|b0 f args l w0 H1 H2] Hr; [congruence|done..]. Qed.

(** Runs of blanks are the only words that may hide a comment. *)
Lemma word_no_comment b nd w u : wword b nd w → (all_blank nd = true → no_comment u) → no_comment (w +:+ u).
Proof.
  intros Hw Hu. destruct (starts_blank [nd]) eqn:Hb; [|by eapply fresh_no_comment, fresh_app, word_fresh].
  destruct Hw as [b0 t Hr _|b0 a H|b0|b0 f args l w0 H1 H2]; try done.
  - destruct (split_blanks t) as (p & r & -> & Hp & Hq).
    simpl in Hu. destruct r as [|a r].
    + rewrite sapp_nil_r in *. apply no_comment_blanks; [done|]. by apply Hu.
    + rewrite sapp_assoc. apply no_comment_blanks; [done|]. apply (no_comment_intro ""); [done|done|].
      apply run_facts in Hr as [_ Hr]. rewrite sforall_app in Hr. simpl in Hr.
      apply andb_true_iff in Hr as [_ Hr]. apply andb_true_iff in Hr as [Hr _].
      apply text_char_facts in Hr as [Hr _]. unfold starts. cbn [has_prefix append].
      by rewrite (eqb_not special "{" a).
  - exfalso. simpl in Hb. destruct (Ascii.eqb_spec a " ") as [-> |]; [done|].
    destruct (Ascii.eqb_spec a "009") as [-> |]; [done|].
    unfold blank in Hb. destruct (Ascii.eqb_spec a " "), (Ascii.eqb_spec a "009"); done.
Qed.

Lemma remark_opt nd c u : remark nd c → (c = "" → no_comment u) → opt_comment c u.
Proof. intros [->|[H _]] Hu; [constructor; by apply Hu|by constructor]. Qed.

Lemma comment_stops w u : comment w → ends blank w → ends text_char (w +:+ u).
Proof. intros [t b H1 H2]. destruct t as [|a t]; [done|]. simpl in *. apply andb_true_iff in H1 as [H1 _]. congruence. Qed.

Lemma words_no_comment b l w u : wwords b l w → no_comment u → no_comment (w +:+ u).
Proof.
  revert w. induction l as [|nd l IH]; intros w H Hu; inversion H as [|b0 nd0 l0 w0 c v Hw Hr Hc Hv Hrun]; subst; [done|].
  rewrite !sapp_assoc. eapply word_no_comment; [done|]. intros Hb.
  destruct Hr as [->|(_ & _ & Hr)]; [|congruence]. simpl. by apply IH.
Qed.

Lemma words_fresh b l w : wwords b l w → l ≠ [] → starts_blank l = false → fresh w.
Proof.
  intros H Hl Hb. inversion H as [|b0 nd l0 w0 c v Hw Hr Hc Hv Hrun]; subst; [done|].
  eapply fresh_app, word_fresh; [done|]. by destruct nd as [[]| | | |].
Qed.

Lemma words_not_blank b l w u : wwords b l w → starts_blank l = false → ends blank u → ends blank (w +:+ u).
Proof.
  intros H Hb Hu. destruct l as [|nd l]; [by inversion H|].
  eapply fresh_not_blank, fresh_app, words_fresh; done.
Qed.

Lemma para_fresh b ls w : wpara b ls w → fresh w.
Proof. intros [b0 l w0 H1 H2 H3|b0 l w0 br ls0 v H1 H2 H3 H4 H5]; [by eapply words_fresh|]. by eapply fresh_app, words_fresh. Qed.
Lemma paras_fresh b ps w : wparas b ps w → fresh w.
Proof. intros [b0 p w0 H|b0 p w0 br sp ps0 v H]; [|apply fresh_app]; by eapply para_fresh. Qed.

Lemma args_ends b l w u : wargs b l w → ends name_char (w +:+ "}" +:+ u).
Proof. intros [|b0 nd l0 w0 v [] _]; done. Qed.

Lemma words_wrest s l w u s' : words s l w u s' → no_break u → wrest s l w u s'.
Proof. intros H Hb. induction H; [by constructor|by econstructor; auto]. Qed.

Lemma words_wrapped s l w u s' : words s l w u s' → l ≠ [] → no_break u → wrapped s l w u s'.
Proof. intros [] Hl Hb; [done|]. econstructor; [done|]. by apply words_wrest. Qed.

Lemma comment_head_break c u : comment c → no_break (c +:+ u).
Proof.
  intros [t b Ht _]. destruct t as [|a t]; [done|]. simpl in Ht. apply andb_true_iff in Ht as [Ht _].
  unfold no_break, starts. cbn [append has_prefix nls].
  destruct (Ascii.eqb_spec nl a) as [<- |]; [done|]. by destruct (Ascii.eqb_spec cr a) as [<- |].
Qed.

Lemma stop0_line u : stop0 u → line_stop u.
Proof. intros H. apply (line_stop_intro ""); [done|by apply stop0_facts|by constructor]. Qed.

Lemma separator_line sp u : separator sp → line_stop (sp +:+ u).
Proof.
  intros [_ [(b & r & Hb & ->)|(c & b & r & Hc & Hb & ->)]]; rewrite !sapp_assoc.
  - by apply stop0_line, break_stop0.
  - destruct Hc as [t b' Ht Hb']. rewrite !sapp_assoc. apply line_stop_intro; [done|done|].
    replace ("{-" +:+ b' +:+ "-}" +:+ b +:+ r +:+ u) with (("{-" +:+ b' +:+ "-}") +:+ b +:+ r +:+ u)
      by by rewrite !sapp_assoc.
    apply stop_comment; [|by apply break_stop0]. by apply (comment_intro "").
Qed.

(** ** Derivations *)

Scheme wword_mind := Minimality for wword Sort Prop
  with wargs_mind := Minimality for wargs Sort Prop
  with warg_mind := Minimality for warg Sort Prop
  with wwords_mind := Minimality for wwords Sort Prop
  with wblock_mind := Minimality for wblock Sort Prop
  with wpara_mind := Minimality for wpara Sort Prop
  with wparas_mind := Minimality for wparas Sort Prop.
Combined Scheme written_ind from wword_mind, wargs_mind, warg_mind, wwords_mind, wblock_mind, wpara_mind, wparas_mind.

Definition idle (b : bool) (s : option nat) : Prop := b = true → s = None.

Lemma written_derives :
  (∀ b nd w, wword b nd w → ∀ s u, idle b s → (is_run nd = true → ends text_char u) → core s (erase nd) w u s) ∧
  (∀ b l w, wargs b l w → ∀ s u, idle b s → starts "{" u = false → arguments s (map erase l) w u s) ∧
  (∀ b nd w, warg b nd w → ∀ s u, idle b s → arg s (erase nd) w u s) ∧
  (∀ b l w, wwords b l w → ∀ s u, idle b s → stop0 u → words s (map erase l) w u s) ∧
  (∀ ls w, wblock ls w → ∀ s u, (s = Some 0 ∨ s = None ∧ flush ls) → ends blank u →
     ∃ s', blines s (map (map erase) ls) w u s') ∧
  (∀ b ls w, wpara b ls w → ∀ s br u, idle b s → (is_break br ∨ br = "" ∧ no_break u ∧ stop0 u) → line_stop u →
     para s (map (map erase) ls) (w +:+ br) u s) ∧
  (∀ b ps w, wparas b ps w → ∀ s u, idle b s → stop0 u → no_break u →
     paras s (map (map (map erase)) ps) w u s).
Proof.
  apply written_ind.
  - intros b t Hr _ s u _ He. apply run_facts in Hr as H. destruct H as [H1 H2]. constructor; auto.
  - intros b a Ha s u _ _. by constructor.
  - intros b s u _ _. constructor.
  - intros b f args l w Hf Ha IH s u Hs _. cbn [erase].
    replace ("{\" +:+ f +:+ w +:+ "}") with ("{" +:+ ("" +:+ (String "\" (f +:+ w)) +:+ "") +:+ "}")
      by (rewrite sapp_nil_r; cbn [append]; by rewrite !sapp_assoc).
    apply core_interp, word_intro.
    + by apply opt_none, (no_comment_intro "").
    + apply core_invoke; [done|simpl; by eapply args_ends|by apply IH].
    + by apply opt_none, brace_no_comment.
  - intros b s u _ H. by constructor.
  - intros b nd l w v Ha IHa Hl IHl s u Hs Hu. econstructor; [by apply IHa|by apply IHl].
  - intros b s u _. constructor.
  - intros b ws w Hn Hws IH s u Hs. apply arg_line.
    + intros H. inversion Hws as [|b0 nd l w0 c v Hw Hr Hc Hv Hrun]; subst; [done|].
      destruct Hw as [b1 t Hr1|b1 a H1|b1|b1 f args l1 w1 H1 H2]; try done.
      exfalso. apply run_facts in Hr1 as [Hn1 Hr1]. destruct t as [|a t]; [done|].
      simpl in Hr1. apply andb_true_iff in Hr1 as [Hr1 _]. apply text_char_facts in Hr1 as [Hr1 _].
      unfold starts in H. cbn [append has_prefix] in H. by rewrite (eqb_not special "{" a) in H.
    + specialize (IH s ("}" +:+ u) Hs ltac:(by right)). change (wrapped s (map erase ws) w ("}" +:+ u) s).
      assert (map erase ws ≠ []) as Hm by by destruct ws.
      by apply words_wrapped.
  - intros b ps br w Hb Hp IH s u Hs. cbn [erase]. rewrite erase_paras.
    apply (arg_paras s br "" _ w "" u s); [done|constructor| |by apply IH; [|right|]|done].
    pose proof (fresh_app _ ("" +:+ "}" +:+ u) (paras_fresh _ _ _ Hp)). split; [by apply fresh_no_break|by apply fresh_no_comment].
  - intros ls br w Hb Hf Hl IH s u Hs. rewrite (Hs eq_refl).
    destruct (IH None ("}}" +:+ u)) as [s' H]; [by right|done|].
    by apply (arg_block None br _ w "" u s').
  - intros b s u _ H. by constructor; constructor.
  - intros b nd l w c v Hw IHw Hr Hc Hv IHv Hrun s u Hs Hu.
    replace (w +:+ c +:+ v) with (("" +:+ w +:+ c) +:+ v) by (simpl; by rewrite !sapp_assoc).
    pose proof (stop0_facts u Hu) as (Hu1 & Hu2 & _).
    assert (c = "" → no_comment (v +:+ u)) as Hn by (intros _; by eapply words_no_comment).
    econstructor; [apply word_intro|by apply IHv].
    + apply opt_none. eapply word_no_comment; [done|]. intros Hb.
      destruct Hr as [->|(_ & _ & Hr)]; [|congruence]. by apply Hn.
    + apply IHw; [done|]. intros Hi. destruct Hr as [->|(Hr & Hr2 & _)].
      * specialize (Hrun Hi eq_refl). rewrite sapp_nil_l. inversion Hv as [|b1 nd1 l1 w1 c1 v1 Hw1]; subst; [done|].
        rewrite sapp_assoc. by eapply word_ends.
      * apply comment_stops; auto.
    + by eapply remark_opt.
  - intros s u _ _. eexists. constructor.
  - intros i ws ls br w v Hi Hb Hw IHw Hbr Hv IHv s u Hs Hu.
    destruct (IHv (Some 0) u) as [s' H]; [by left|done|]. exists s'.
    assert (sdrop 0 i = i) as E by by destruct i.
    change (map (map erase) ((NString i :: ws) :: ls)) with ((NString i :: map erase ws) :: map (map erase) ls).
    rewrite <- E at 1. apply bl_cons with (s1 := Some 0); [done| | | |done|done].
    + rewrite <- sapp_assoc. eapply words_not_blank in Hw; [rewrite sapp_assoc; exact Hw|done|by apply break_ends_blank].
    + destruct Hs as [->|[-> Hf]]; [done|]. simpl in Hf. by rewrite Hf.
    + apply IHw; [done|by apply break_stop0].
  - intros b l w Hl Hb Hw IH s br u Hs Hbr Hu. apply para_last; [|naive_solver|done].
    apply (line_intro s "" _ w); [done| |by destruct l|apply IH; [done|]].
    + by eapply fresh_not_blank, fresh_app, words_fresh.
    + destruct Hbr as [H|(-> & _ & H)]; [by apply break_stop0|done].
  - intros b l w br ls v Hl Hb Hw IHw Hbr Hp IHp s br' u Hs Hbr' Hu. rewrite !sapp_assoc.
    apply para_cons with (s1 := s); [|done|by apply IHp].
    apply (line_intro s "" _ w); [done| |by destruct l|apply IHw; [done|]].
    + by eapply fresh_not_blank, fresh_app, words_fresh.
    + by apply break_stop0.
  - intros b p w Hp IH s u Hs Hu Hb. rewrite <- (sapp_nil_r w). apply paras_last; [|constructor| |by apply stop0_line].
    + rewrite <- (sapp_nil_r w). apply IH; [done|by right|by apply stop0_line].
    + split; [done|by apply stop0_facts].
  - intros b p w br sp ps v Hp IHp Hb Hsp _ Hps IHps s u Hs Hu Hbu.
    replace (w +:+ br +:+ sp +:+ v) with ((w +:+ br) +:+ sp +:+ v) by by rewrite !sapp_assoc.
    apply paras_cons with (s1 := s).
    + apply IHp; [done|by left|by apply separator_line].
    + apply Hsp.
    + pose proof (fresh_app _ u (paras_fresh _ _ _ Hps)). split; [by apply fresh_no_break|by apply fresh_no_comment].
    + by apply IHps.
Qed.

Lemma written_document ps d : written ps d → document (map (map (map erase)) ps) d.
Proof.
  intros H. rewrite <- (sapp_nil_l d). apply document_intro with (s' := None); [constructor| |].
  - pose proof (paras_fresh _ _ _ H). split; [by apply fresh_no_break|by apply fresh_no_comment].
  - by apply written_derives with (b := true).
Qed.
