(** What the recursive-descent parser returns. *)
From Coq Require Import Ascii String NArith Lia.
From stdpp Require Import base tactics relations strings numbers list.
From Verif Require Import GoBase Ast Utf8 Peg StrProofs PegBase Descent DescentProofs ParseSpec ParserMain Encoding Positions Runs.
Local Open Scope string_scope.
Local Open Scope list_scope.

Section Shape.
  Variable d : string.
  Hypothesis Hd : valid_utf8 d.

  (** The results of [p] satisfy [Q], wherever in the document it starts. *)
  Definition gives {A} (p : parser A) (Q : A → Prop) : Prop :=
    ∀ c s a c' s', reach (origin d) c → p c s = Match a c' s' → reach c c' ∧ Q a.

  Definition any {A} (a : A) : Prop := True.

  Lemma gives_ret {A} (a : A) (Q : A → Prop) : Q a → gives (pret a) Q.
  Proof. intros H c s a' c' s' Hc [= <- <- <-]. split; [apply reach_refl|done]. Qed.
  Lemma gives_bind {A B} (p : parser A) (f : A → parser B) (Q : A → Prop) (R : B → Prop) :
    gives p Q → (∀ a, Q a → gives (f a) R) → gives (pbind p f) R.
  Proof.
    intros Hp Hf c s b c' s' Hc. unfold pbind. destruct (p c s) as [| |a c1 s1] eqn:E; try done.
    apply Hp in E as [H1 H2]; [|done]. intros H. apply (Hf a H2) in H as [H3 H4]; [|by eapply reach_trans].
    split; [by eapply reach_trans|done].
  Qed.
  Lemma gives_alt {A} (p q : parser A) (Q : A → Prop) : gives p Q → gives q Q → gives (palt p q) Q.
  Proof.
    intros Hp Hq c s a c' s' Hc. unfold palt. destruct (p c s) as [| |a1 c1 s1] eqn:E; [done| |].
    - by apply Hq.
    - intros [= <- <- <-]. by eapply Hp.
  Qed.
  Lemma gives_opt {A} (p : parser A) (Q : A → Prop) : gives p Q →
    gives (popt p) (λ o, match o with Some a => Q a | None => True end).
  Proof.
    intros Hp c s a c' s' Hc. unfold popt. destruct (p c s) as [| |a1 c1 s1] eqn:E; [done| |].
    - intros [= <- <- <-]. split; [apply reach_refl|done].
    - intros [= <- <- <-]. by eapply Hp.
  Qed.
  Lemma gives_not {A} (p : parser A) : gives (pnot p) any.
  Proof.
    intros c s a c' s' Hc. unfold pnot. destruct (p c s); try done. intros [= <- <- <-].
    split; [apply reach_refl|done].
  Qed.
  Lemma gives_go {A} (p : parser A) (Q : A → Prop) R acc : gives p Q → Forall Q acc → gives (pmany_go p R acc) (Forall Q).
  Proof.
    intros Hp. revert acc. induction R as [|R IH]; intros acc Hacc c s l c' s' Hc; simpl; [done|].
    destruct (p c s) as [| |a c1 s1] eqn:E; [done| |].
    - intros [= <- <- <-]. split; [apply reach_refl|done].
    - apply Hp in E as [H1 H2]; [|done]. intros H. apply IH in H as [H3 H4].
      + split; [by eapply reach_trans|done].
      + apply Forall_app. split; [done|by constructor].
      + by eapply reach_trans.
  Qed.
  Lemma gives_many {A} (p : parser A) (Q : A → Prop) : gives p Q → gives (pmany p) (Forall Q).
  Proof. intros Hp c s l c' s' Hc. apply gives_go; [done|constructor|done]. Qed.
  Lemma gives_many1 {A} (p : parser A) (Q : A → Prop) : gives p Q → gives (pmany1 p) (λ l, l ≠ [] ∧ Forall Q l).
  Proof.
    intros Hp c s l c' s' Hc. unfold pmany1. destruct (pmany p c s) as [| |[|a l1] c1 s1] eqn:E; try done.
    intros [= <- <- <-]. apply (gives_many p Q Hp) in E as [H1 H2]; done.
  Qed.
  Lemma gives_lit w : ascii_only w = true → gives (plit w) any.
  Proof. intros Hw c s a c' s' Hc H. apply plit_inv in H as [H _]; done. Qed.
  Lemma gives_class q : gives (pclass q) any.
  Proof.
    intros c s a c' s' Hc. unfold pclass. destruct (at_end c) eqn:E; [done|]. case_match; [|done].
    intros [= <- <- <-]. split; [|done]. by apply reach_next, class_end.
  Qed.
  Lemma gives_any : gives pany any.
  Proof.
    intros c s a c' s' Hc. unfold pany. destruct (at_end c) eqn:E; [done|].
    intros [= <- <- <-]. split; [|done]. by apply reach_next, class_end.
  Qed.
  Lemma gives_weaken {A} (p : parser A) (Q R : A → Prop) : (∀ a, Q a → R a) → gives p Q → gives p R.
  Proof. intros H Hp c s a c' s' Hc E. apply Hp in E as [? ?]; auto. Qed.

  Lemma gives_break : gives p_break any.
  Proof. apply gives_alt; by apply gives_lit. Qed.
  Lemma gives_blanks : gives p_blanks any.
  Proof. eapply gives_weaken; [|apply gives_many, gives_class]. done. Qed.

  Lemma gives_comment n : gives (p_comment n) any.
  Proof.
    induction n as [|n IH]; [done|]. simpl.
    eapply gives_bind; [apply gives_blanks|intros _ _].
    eapply gives_bind; [by apply gives_lit|intros _ _].
    eapply gives_bind; [|intros _ _; by apply gives_lit].
    apply gives_many, gives_alt; [apply IH|].
    eapply gives_bind; [apply gives_not|intros _ _; apply gives_any].
  Qed.

  (** Text. *)
  Lemma fits_text a : fits textc a = true → negb (Ascii.eqb a nl) && negb (Ascii.eqb a cr) = true.
  Proof.
    intros H. destruct (Ascii.eqb_spec a nl) as [->|]; [done|]. destruct (Ascii.eqb_spec a cr) as [->|]; done.
  Qed.
  Lemma fits_verb a : fits verbc a = true → negb (Ascii.eqb a nl) && negb (Ascii.eqb a cr) = true.
  Proof.
    intros H. destruct (Ascii.eqb_spec a nl) as [->|]; [done|]. destruct (Ascii.eqb_spec a cr) as [->|]; done.
  Qed.
  Lemma gives_text q : flat q → gives (ptext (pmany1 (pclass q))) (λ t, sforall (fits q) t = true ∧ t ≠ "").
  Proof.
    intros Hq c s t c' s' Hc. destruct (ptext_many1_class q c s Hq) as [[_ ->]|(Hn & c1 & -> & H1 & H2)]; [done|].
    intros [= <- <- <-]. split; [done|]. split; [apply run_fits|done].
  Qed.

  Lemma gives_string : gives p_string (shaped d).
  Proof.
    apply gives_alt.
    - eapply gives_bind; [by apply gives_text|]. intros t [Ht _]. apply gives_ret. constructor.
      eapply sforall_impl; [|exact Ht]. apply fits_text.
    - intros c s nd c' s' Hc. unfold ptext, pbind, pret.
      destruct (plit "\" c s) as [| |u c1 s1] eqn:E; try done.
      apply plit_inv in E as (H1 & -> & H2 & H3); [|done].
      pose proof (pclass_spec escc c1 s flat_escc) as Hs.
      destruct (c_rest c1) as [|a r] eqn:E1; rewrite Hs; [done|]. destruct (fits escc a) eqn:Ef; [|done].
      assert (c_rest c1 ≠ "") as Hm by by rewrite E1.
      intros [= <- <- <-]. split; [eapply reach_trans; [done|by apply reach_next]|].
      rewrite (slice_app _ c1) by (done || by apply reach_next). rewrite H3. simpl.
      assert (byte a < 128)%N as Ha.
      { unfold fits in Ef. destruct (N.ltb_spec (byte a) 128); done. }
      unfold slice. rewrite next_off, (cur_w_ascii _ _ _ E1), E1 by done.
      replace (c_off c1 + 1 - c_off c1) with 1 by lia. simpl. constructor.
      unfold line_free. cbn [sforall]. rewrite andb_true_r.
      destruct (Ascii.eqb_spec a nl) as [->|]; [done|]. destruct (Ascii.eqb_spec a cr) as [->|]; done.
  Qed.

  Lemma gives_vstring : gives p_vstring (shaped d).
  Proof.
    apply gives_alt.
    - eapply gives_bind; [by apply gives_text|]. intros t [Ht _]. apply gives_ret. constructor.
      eapply sforall_impl; [|exact Ht]. apply fits_verb.
    - intros c s nd c' s' Hc. unfold ptext, pbind, pret, pnot.
      destruct (plit "}" c s) as [| |u c1 s1] eqn:E; try done.
      apply plit_inv in E as (H1 & -> & H2 & H3); [|done].
      destruct (plit "}}" c1 s) as [| |]; try done. intros [= <- <- <-]. split; [done|].
      rewrite H3. by constructor.
  Qed.

  Lemma gives_indent : gives p_indent (λ t, line_free t = true).
  Proof.
    intros c s t c' s' Hc. unfold p_indent.
    destruct (ptext_many_class blanks c s flat_blanks) as (c1 & E & H1 & H2).
    unfold p_blanks. rewrite E. intros [= <- <- <-]. split; [done|].
    assert (line_free (run blanks (c_rest c)) = true) as Hl.
    { eapply sforall_impl; [|apply run_fits]. intros a H. destruct (Ascii.eqb_spec a nl) as [->|]; [done|].
      destruct (Ascii.eqb_spec a cr) as [->|]; done. }
    revert Hl. generalize (default (String.length (run blanks (c_rest c))) s).
    generalize (run blanks (c_rest c)). intros t k. revert t. induction k as [|k IH]; intros [|a t]; simpl; try done.
    intros [_ H]%andb_true_iff. by apply IH.
  Qed.

  Lemma gives_block_line w : gives w (shaped d) → gives (p_block_line w) (λ l, l ≠ [] ∧ Forall (shaped d) l).
  Proof.
    intros Hw. eapply gives_bind; [apply gives_indent|intros i Hi].
    eapply gives_bind; [by apply gives_many|intros ws Hws].
    eapply gives_bind; [apply gives_break|intros _ _]. apply gives_ret. split; [done|].
    constructor; [by constructor|done].
  Qed.
  Lemma gives_clear : gives p_clear any.
  Proof. intros c s a c' s' Hc [= <- <- <-]. split; [apply reach_refl|done]. Qed.
  Lemma gives_block w : gives w (shaped d) → gives (p_block w) (Forall (λ l, l ≠ [] ∧ Forall (shaped d) l)).
  Proof.
    intros Hw. eapply gives_bind; [apply gives_break|intros _ _].
    eapply gives_bind; [by apply gives_many, gives_block_line|intros ls Hls].
    eapply gives_bind; [apply gives_blanks|intros _ _].
    eapply gives_bind; [apply gives_clear|intros _ _]. by apply gives_ret.
  Qed.
  Lemma gives_verb_arg : gives p_verb_arg (shaped d).
  Proof.
    eapply gives_bind; [by apply gives_lit|intros _ _].
    eapply (gives_bind _ _ (shaped d)); [|intros nd Hnd; eapply gives_bind; [by apply gives_lit|intros _ _; by apply gives_ret]].
    apply gives_alt.
    - eapply gives_bind; [apply gives_block, gives_vstring|intros ls Hls]. apply gives_ret. by constructor.
    - eapply gives_bind; [apply gives_many, gives_vstring|intros ls Hls]. apply gives_ret. by constructor.
  Qed.

  Section Rules.
    Variable cm : parser unit.
    Variable wd : parser node.
    Hypothesis Hcm : gives cm any.
    Hypothesis Hwd : gives wd (shaped d).

    Definition lines_ok (ls : list (list node)) : Prop := ls ≠ [] ∧ Forall (λ l, l ≠ [] ∧ Forall (shaped d) l) ls.

    Lemma gives_spacing : gives (p_spacing cm) any.
    Proof. by apply gives_alt; [apply gives_break|]. Qed.
    Lemma gives_line : gives (p_line wd) (λ l, l ≠ [] ∧ Forall (shaped d) l).
    Proof. eapply gives_bind; [apply gives_blanks|intros _ _]. by apply gives_many1. Qed.
    Lemma gives_para : gives (p_para wd) lines_ok.
    Proof.
      apply gives_many1. eapply gives_bind; [apply gives_line|intros l Hl].
      eapply gives_bind; [apply gives_opt, gives_break|intros _ _]. by apply gives_ret.
    Qed.
    Lemma gives_paras : gives (p_paras cm wd) (λ ps, ps ≠ [] ∧ Forall lines_ok ps).
    Proof.
      eapply gives_bind; [apply gives_many, gives_spacing|intros _ _]. apply gives_many1.
      eapply gives_bind; [apply gives_para|intros p Hp].
      eapply gives_bind; [apply gives_many, gives_spacing|intros _ _]. by apply gives_ret.
    Qed.
    Lemma gives_split : gives p_split (shaped d).
    Proof.
      eapply gives_bind; [apply gives_break|intros _ _]. eapply gives_bind; [apply gives_blanks|intros _ _].
      apply gives_ret. by constructor.
    Qed.
    Lemma gives_wrapped : gives (p_wrapped wd) (Forall (shaped d)).
    Proof.
      eapply gives_bind; [done|intros w Hw]. eapply gives_bind.
      - apply gives_many, gives_alt; [done|apply gives_split].
      - intros ws Hws. apply gives_ret. by constructor.
    Qed.
    Lemma gives_pre_arg : gives (p_pre_arg wd) (shaped d).
    Proof.
      eapply gives_bind; [by apply gives_lit|intros _ _].
      eapply gives_bind; [by apply gives_block|intros ls Hls].
      eapply gives_bind; [by apply gives_lit|intros _ _]. apply gives_ret. by constructor.
    Qed.
    Lemma shaped_doc ps : Forall lines_ok ps → shaped d (NSeq (map NPara ps)).
    Proof. intros H. constructor. apply Forall_map. eapply Forall_impl; [exact H|]. intros ls [? ?]. by constructor. Qed.
    Lemma gives_arg : gives (p_arg cm wd) (shaped d).
    Proof.
      eapply gives_bind; [by apply gives_lit|intros _ _].
      eapply gives_bind.
      { eapply (gives_opt _ (λ o, match o with Some nd => shaped d nd | None => True end)).
        apply gives_alt; [|apply gives_alt].
        - eapply gives_bind; [apply gives_wrapped|intros ws Hws]. apply gives_ret. by constructor.
        - eapply gives_bind; [apply gives_paras|intros ps [_ Hps]].
          eapply gives_bind; [apply gives_blanks|intros _ _]. apply gives_ret. by apply shaped_doc.
        - eapply gives_bind; [apply gives_many, gives_spacing|intros _ _]. by apply gives_ret. }
      intros o Ho. eapply gives_bind; [by apply gives_lit|intros _ _]. apply gives_ret.
      destruct o as [[nd|]|]; simpl; [done|by constructor|by constructor].
    Qed.
    Lemma gives_argument : gives (p_argument cm wd) (shaped d).
    Proof. apply gives_alt; [apply gives_verb_arg|]. apply gives_alt; [apply gives_pre_arg|apply gives_arg]. Qed.

    Lemma fits_name a : fits namec a = name_char a.
    Proof.
      unfold fits, name_char, namec, class_match. cbn [k_chars k_ranges k_inv existsb fst snd].
      rewrite !orb_false_r. change (byte "a") with 97%N. change (byte "z") with 122%N. unfold byte.
      assert ((N_of_ascii "-" =? N_of_ascii a)%N = Ascii.eqb a "-") as ->.
      { destruct (Ascii.eqb_spec a "-") as [->|Hn]; [done|]. apply N.eqb_neq. intros E. apply Hn.
        symmetry. by apply byte_inj. }
      destruct (N.ltb_spec (N_of_ascii a) 128); [done|].
      destruct (Ascii.eqb_spec a "-") as [->|Hn]; [done|].
      destruct (N.leb_spec (N_of_ascii a) 122); [lia|]. by rewrite andb_false_r.
    Qed.

    Lemma gives_invoke : gives (p_invoke cm wd) (shaped d).
    Proof.
      intros c s nd c' s' Hc. unfold p_invoke, pbind, pret.
      destruct (plit "\" c s) as [| |u c1 s1] eqn:E; try done.
      apply plit_inv in E as (H1 & -> & H2 & H3); [|done].
      destruct (ptext_many1_class namec c1 s flat_namec) as [[_ ->]|(Hn & c2 & -> & H4 & H5)]; [done|].
      destruct (pmany (p_argument cm wd) c2 s) as [| |args c3 s3] eqn:E; try done.
      apply (gives_many _ _ gives_argument) in E as [H6 H7];
        [|eapply reach_trans; [done|by eapply reach_trans]].
      intros [= <- <- <-]. split; [eapply reach_trans; [done|by eapply reach_trans]|].
      pose proof (reach_placed d c Hc) as Hp. pose proof (reach_col d c Hd Hc) as Hcol.
      assert (at_nl (c_rest c) = false) as Hnl by by rewrite H2.
      constructor; [|  |done].
      - split; [done|]. eapply sforall_impl; [|apply run_fits]. intros a. by rewrite fits_name.
      - exists (stake (c_off c) d), (after namec (c_rest c1)). split_and!.
        + rewrite (pl_pre _ _ Hp) at 1. f_equal. rewrite H2. simpl. f_equal. by rewrite <- run_after.
        + pose proof (after_head namec (c_rest c1)) as Ha. case_match; [done|]. by rewrite <- fits_name.
        + simpl. by rewrite (pl_off _ _ Hp).
        + simpl. rewrite (pl_line _ _ Hp), Hnl. done.
        + simpl. by rewrite Hcol, Hnl.
    Qed.
    Lemma gives_interp : gives (p_interp wd) (shaped d).
    Proof.
      eapply gives_bind; [by apply gives_lit|intros _ _].
      eapply gives_bind; [by apply gives_opt|intros o Ho].
      eapply gives_bind; [by apply gives_lit|intros _ _]. apply gives_ret. destruct o; simpl; [done|by constructor].
    Qed.
    Lemma gives_word_body : gives (p_word_body cm wd) (shaped d).
    Proof.
      eapply gives_bind; [by apply gives_opt|intros _ _].
      eapply gives_bind; [apply gives_alt; [apply gives_string|apply gives_alt; [apply gives_invoke|apply gives_interp]]|].
      intros v Hv. eapply gives_bind; [by apply gives_opt|intros _ _]. by apply gives_ret.
    Qed.
  End Rules.

  Lemma gives_word n : gives (p_word n) (shaped d).
  Proof. induction n as [|n IH]; [done|]. apply gives_word_body; [apply gives_comment|done]. Qed.

  Lemma gives_document n : gives (p_document n) (λ ps, ps ≠ [] ∧ Forall lines_ok ps).
  Proof.
    eapply gives_bind; [apply gives_paras; [apply gives_comment|apply gives_word]|intros ps Hps].
    eapply gives_bind; [apply gives_not|intros _ _]. by apply gives_ret.
  Qed.

  Lemma matches_shaped ps : matches d ps → ps ≠ [] ∧ Forall lines_ok ps.
  Proof.
    intros (c & s & n & Hn). specialize (Hn n ltac:(lia)). apply gives_document in Hn as [_ H]; [done|apply reach_refl].
  Qed.
End Shape.
