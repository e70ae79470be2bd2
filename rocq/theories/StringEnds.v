(** When String() ends: it follows references without content to the titles of
    their tags; it ends exactly if such chains of titles do. *)
From Coq Require Import Ascii String Lia.
From stdpp Require Import base tactics relations strings list.
From Verif Require Import GoBase Ast Content Section ContentProofs TreeSpec TreeProofs TagProofs QueryProofs
  Evaluate EvalProofs EvalFrame EvalInv BaseFacts HtmlLoad HtmlProofs Sound.
Local Open Scope list_scope.

(** ** Specification *)

(** [part c x]: the text of [c] contains that of [x], which is written within [c]. *)
Inductive part : content → content → Prop :=
| part_here c : part c c
| part_seq l x y : x ∈ l → part x y → part (CSeq l) y
| part_para l x y : x ∈ l → part x y → part (CPara l) y
| part_pre l x y : x ∈ l → part x y → part (CPre l) y
| part_list l o x y : x ∈ l → part x y → part (CList l o) y
| part_ref i t x o l y : part x y → part (CRef i t (Some x) o l) y
| part_link x t y : part x y → part (CLink x t) y
| part_styled st b x ps y : part x y → part (CStyled st b x ps) y
| part_cell rows r x y : r ∈ rows → x ∈ r → part x y → part (CTable rows) y
| part_subject defs p y : p ∈ defs → part (fst p) y → part (CDefs defs) y
| part_definition defs p y : p ∈ defs → part (snd p) y → part (CDefs defs) y
| part_aux x y : part x y → part (CAux x) y.

(** [shows h c c']: within [c] there is a reference without content of its own,
    and [c'] is the title of the tag it refers to. *)
Definition shows (h : heap) (c c' : content) : Prop :=
  ∃ sec name opt l t, part c (CRef sec name None opt l) ∧
    all_tags h sec (λ n, String.eqb n name) [t] ∧ t_title t = Some c'.

(** No infinite chain of titles starts at [c]. *)
Definition grounded (h : heap) (c : content) : Prop := Acc (flip (shows h)) c.

(** ** More jumps do not change a result *)

Definition cbelow {E A} (o o' : outcome E A) : Prop := o = NoFuel ∨ o' = o.
Lemma cbelow_obind {E A B} (f f' : A → outcome E B) o o' : cbelow o o' → (∀ x, cbelow (f x) (f' x)) → cbelow (obind f o) (obind f' o').
Proof. intros [-> | ->] H; [by left|]. destruct o; [apply H|by right..]. Qed.
Lemma cbelow_omapM {E A B} (f f' : A → outcome E B) l : Forall (λ x, cbelow (f x) (f' x)) l → cbelow (omapM f l) (omapM f' l).
Proof.
  induction 1 as [|c l Hc _ IH]; [by right|].
  change (omapM f (c :: l)) with (obind (λ y, obind (λ ys, Ok (y :: ys)) (omapM f l)) (f c)).
  change (omapM f' (c :: l)) with (obind (λ y, obind (λ ys, Ok (y :: ys)) (omapM f' l)) (f' c)).
  apply cbelow_obind; [done|]. intros y. apply cbelow_obind; [done|]. intros ys. by right.
Qed.
Lemma cbelow_fmt o o' : cbelow o o' → cbelow (fmt_s o) (fmt_s o').
Proof. intros [-> | ->]; [by left|by right]. Qed.

Section string.
  Context (similar : string → string → bool) (broken : bool) (h : heap).
  Notation str := (cstring similar broken h).
  Notation strF := (cstring_F similar broken h).

  Lemma strF_below jump jump' c : (∀ c, cbelow (jump c) (jump' c)) → cbelow (strF jump c) (strF jump' c).
  Proof.
    intros J.
    induction c as [s|l IH|l IH|l IH|sec t rc o l IH|c t IH|s|s|st b c ps IH IHps|t l ti x IHt IHx|p d|l o IH|rows IH|defs IH|b t|c IH]
      using content_ind'; cbn [cstring_F]; try (by right); try done;
      try (apply cbelow_obind; [by apply cbelow_omapM|intros ?; by right]).
    - destruct rc; [done|]. destruct (ref_tag _ _ _ _ _ _ _) as [[u|]|e| |]; try (by right). destruct (t_title u); [done|by right].
    - destruct (h !! s); [|by right]. apply cbelow_obind; [|intros ?; by right]. by apply cbelow_fmt.
    - apply cbelow_obind; [|intros ?; by right]. apply cbelow_omapM. eapply Forall_impl; [exact IH|]. intros r F. by apply cbelow_omapM.
    - apply cbelow_obind; [|intros ?; by right]. apply cbelow_omapM. eapply Forall_impl; [exact IH|]. intros [x y] [F1 F2]. simpl in *.
      apply cbelow_obind; [by apply cbelow_fmt|]. intros sa. apply cbelow_obind; [by apply cbelow_fmt|]. intros ?. by right.
  Qed.

  Lemma str_below n n' c : n ≤ n' → cbelow (str n c) (str n' c).
  Proof.
    revert n' c. induction n as [|n IH]; intros [|n'] c L; try lia; cbn [cstring]; apply strF_below; intros x; try (by left).
    apply IH. lia.
  Qed.
  Lemma str_more n n' c r : str n c = r → r ≠ NoFuel → n ≤ n' → str n' c = r.
  Proof. intros <- N L. by destruct (str_below n n' c L). Qed.
  Lemma str_unique n n' c r r' : str n c = Ok r → str n' c = Ok r' → r = r'.
  Proof.
    intros E E'. destruct (Nat.le_ge_cases n n') as [L|L].
    - apply (str_more _ n') in E; [|done..]. congruence.
    - apply (str_more _ n) in E'; [|done..]. congruence.
  Qed.

  Lemma omapM_all {E A B} (f : A → outcome E B) l : Forall (λ x, ∃ y, f x = Ok y) l → ∃ ys, omapM f l = Ok ys.
  Proof.
    induction 1 as [|c l [y Hy] _ [ys IH]]; [by exists []|].
    change (omapM f (c :: l)) with (obind (λ y, obind (λ ys, Ok (y :: ys)) (omapM f l)) (f c)).
    rewrite Hy, IH. by eexists.
  Qed.

  (** A common number of jumps. *)
  Lemma common {A} (P : nat → A → Prop) l : (∀ n n' x, n ≤ n' → P n x → P n' x) →
    Forall (λ x, ∃ n, P n x) l → ∃ n, Forall (P n) l.
  Proof.
    intros M. induction 1 as [|x l [n Hn] _ [m IH]]; [by exists 0|]. exists (n `max` m).
    constructor; [eapply M; [|done]; lia|]. eapply Forall_impl; [exact IH|]. intros y. apply M. lia.
  Qed.

  Definition fine (n : nat) (c : content) : Prop := ∃ s, strF (str n) c = Ok s.
  Lemma fine_mono n n' c : n ≤ n' → fine n c → fine n' c.
  Proof.
    intros L [s Hs]. exists s. change (str (S n) c = Ok s) in Hs. change (str (S n') c = Ok s).
    eapply str_more; [done|done|lia].
  Qed.

  Context (W : wf h) (S : sturdy h).
  Lemma owned : tags_owned h.
  Proof. intros i x t Hx Ht. destruct (S _ _ Hx) as (_ & _ & _ & HT & _). rewrite Forall_forall in HT. by apply HT. Qed.

  Lemma all_tags_one sec name u t : all_tags h sec (λ n, String.eqb n name) [u] → all_tags h sec (λ n, String.eqb n name) [t] → u = t.
  Proof.
    intros A A'. assert ([u] ≡ₚ [t]) as P by by eapply all_tags_perm. by apply Permutation_singleton_r in P as [= ->].
  Qed.

  Lemma ref_one sec name opt l t : sec < length h → all_tags h sec (λ n, String.eqb n name) [t] →
    ref_tag similar broken h sec name opt l = Ok (Some t).
  Proof.
    intros Hs A. destruct (resolve_spec similar h sec name opt l [t] W Hs owned A) as (H1 & _).
    unfold ref_tag. by rewrite (H1 t).
  Qed.
  Lemma ref_other sec name opt l : sec < length h → ref_tag similar broken h sec name opt l ≠ NoFuel ∧
    ∀ t, ref_tag similar broken h sec name opt l = Ok (Some t) →
      all_tags h sec (λ n, String.eqb n name) [t] ∨ t = broken_tag sec name l.
  Proof.
    intros Hs. destruct (filter_tags_all h (λ n, String.eqb n name) sec W Hs) as (ts & _ & A).
    destruct (resolve_spec similar h sec name opt l ts W Hs owned A) as (H1 & H0 & H2). unfold ref_tag.
    destruct ts as [|t [|t' ts]].
    - specialize (H0 eq_refl). destruct opt; [by rewrite H0|]. destruct H0 as (f & sim & -> & _).
      destruct broken; [|done]. split; [done|]. intros t [= <-]. by right.
    - rewrite (H1 t) by done. split; [done|]. intros u [= <-]. by left.
    - destruct H2 as (f & ds & locs & -> & _); [simpl; lia|]. destruct broken; [|done]. split; [done|]. intros u [= <-]. by right.
  Qed.

  Lemma fine_list n l : Forall (fine n) l → ∃ ss, omapM (strF (str n)) l = Ok ss.
  Proof. apply omapM_all. Qed.

  (** If all titles shown have texts, so has the content. *)
  Lemma fine_shown c : sound (length h) c = true →
    (∀ c', shows h c c' → ∃ n s, str n c' = Ok s) → ∃ n, fine n c.
  Proof.
    induction c as [s|l IH|l IH|l IH|sec t rc o l IH|c t IH|s|s|st b c ps IH IHps|t l ti x IHt IHx|p d|l o IH|rows IH|defs IH|b t|c IH]
      using content_ind'; cbn [sound]; intros Hc Hsh; try done; try (exists 0; by eexists).
    1,2,3,7: assert (∃ n, Forall (fine n) l) as [n Hn];
      [apply common; [by apply fine_mono|]; rewrite forallb_Forall in Hc; rewrite Forall_forall in IH, Hc |- *;
       intros x Hx; apply IH; [done|by apply Hc|]; intros c' (sec & name & opt & lo & t & Hp & Ht); apply Hsh;
       exists sec, name, opt, lo, t; split; [|done]; first [eapply part_seq|eapply part_para|eapply part_pre|eapply part_list]; eassumption
      |destruct (fine_list n l Hn) as [ss Hss]; exists n; eexists; cbn [cstring_F]; rewrite Hss; reflexivity].
    - rewrite !andb_true_iff, Nat.ltb_lt, negb_true_iff in Hc. destruct Hc as [[Hsec ->] Hrc]. destruct rc as [c|].
      + destruct IH as [n Hn]; [done| |by exists n]. intros c' (sec' & name & opt & lo & u & Hp & Ht). apply Hsh.
        exists sec', name, opt, lo, u. split; [|done]. by constructor.
      + pose proof (sturdy_ref_tag similar broken h sec t l S Hsec) as Hr. destruct (ref_other sec t false l Hsec) as [Hnf Hone].
        unfold fine. cbn [cstring_F]. destruct (ref_tag _ _ _ _ _ _ _) as [[u|]|e| |]; try done; [|exists 0; by eexists].
        destruct Hr as (c & Hc & Hcs). rewrite Hc. destruct (Hone u eq_refl) as [A| ->].
        * apply Hsh. exists sec, t, false, l, u. split; [constructor|done].
        * simpl in Hc. injection Hc as <-. exists 0. by eexists.
    - destruct IH as [n Hn]; [done| |by exists n]. intros c' (sec' & name & opt & lo & u & Hp & Ht). apply Hsh.
      exists sec', name, opt, lo, u. split; [|done]. by constructor.
    - apply andb_true_iff in Hc as [Hc _]. destruct IH as [n Hn]; [done| |by exists n].
      intros c' (sec' & name & opt & lo & u & Hp & Ht). apply Hsh. exists sec', name, opt, lo, u. split; [|done]. by constructor.
    - assert (∃ n, Forall (Forall (fine n)) rows) as [n Hn].
      { apply (common (λ n, Forall (fine n))).
        { intros n n' r L F. eapply Forall_impl; [exact F|]. intros c. by apply fine_mono. }
        rewrite forallb_Forall in Hc. rewrite Forall_forall in IH, Hc |- *. intros r Hr. specialize (IH r Hr). specialize (Hc r Hr).
        apply common; [by apply fine_mono|]. rewrite forallb_Forall in Hc. rewrite Forall_forall in IH, Hc |- *.
        intros x Hx. apply IH; [done|by apply Hc|]. intros c' (sec & name & opt & lo & t & Hp & Ht). apply Hsh.
        exists sec, name, opt, lo, t. split; [|done]. eapply part_cell; eassumption. }
      exists n. unfold fine. cbn [cstring_F]. destruct (omapM_all (λ row, omapM (strF (str n)) row) rows) as [ys Hys].
      { eapply Forall_impl; [exact Hn|]. intros r. apply fine_list. }
      change (λ row : list content, omapM (λ c, strF (str n) c) row) with (λ row : list content, omapM (strF (str n)) row).
      rewrite Hys. by eexists.
    - assert (∃ n, Forall (λ p, fine n (fst p) ∧ fine n (snd p)) defs) as [n Hn].
      { apply (common (λ n p, fine n (fst p) ∧ fine n (snd p))).
        { intros n n' r L [F1 F2]. split; by eapply fine_mono. }
        rewrite forallb_Forall in Hc. rewrite Forall_forall in IH, Hc |- *. intros [a b] Hr. destruct (IH _ Hr) as [IHa IHb].
        specialize (Hc _ Hr). simpl in *. apply andb_true_iff in Hc as [Ha Hb].
        destruct IHa as [n1 H1]; [done| |destruct IHb as [n2 H2]; [done| |]].
        - intros c' (sec & name & opt & lo & t & Hp & Ht). apply Hsh. exists sec, name, opt, lo, t. split; [|done].
          by apply part_subject with (1 := Hr).
        - intros c' (sec & name & opt & lo & t & Hp & Ht). apply Hsh. exists sec, name, opt, lo, t. split; [|done].
          by apply part_definition with (1 := Hr).
        - exists (n1 `max` n2). split; (eapply fine_mono; [|done]; lia). }
      exists n. unfold fine. cbn [cstring_F].
      match goal with |- ∃ s, obind _ (omapM ?f defs) = _ => destruct (omapM_all f defs) as [ys Hys] end.
      { eapply Forall_impl; [exact Hn|]. intros [a b] [[sa Ha] [sb Hb]]. simpl in *. rewrite Ha. simpl. rewrite Hb. simpl. by eexists. }
      rewrite Hys. by eexists.
    - destruct IH as [n Hn]; [done| |by exists n]. intros c' (sec' & name & opt & lo & u & Hp & Ht). apply Hsh.
      exists sec', name, opt, lo, u. split; [|done]. by constructor.
  Qed.

  (** A text exists only if those of all parts do. *)
  Lemma omapM_elem {E A B} (f : A → outcome E B) l ys x : omapM f l = Ok ys → x ∈ l → ∃ y, f x = Ok y.
  Proof.
    intros H Hx. apply omapM_Ok in H. induction H as [|? ? ? ? H _ IH]; [by apply elem_of_nil in Hx|].
    apply elem_of_cons in Hx as [-> |Hx]; [by eexists|by apply IH].
  Qed.
  Lemma obind_Ok_inv {E A B} (f : A → outcome E B) o b : obind f o = Ok b → ∃ a, o = Ok a ∧ f a = Ok b.
  Proof. destruct o; simpl; try done. eauto. Qed.
  Lemma fmt_Ok_inv o b : fmt_s o = Ok b → o ≠ Panic → o = Ok b.
  Proof. destruct o; simpl; try done. Qed.

  Lemma strF_part jump c y s : part c y → sound (length h) c = true → (∀ c, sound (length h) c = true → jump c ≠ Panic) →
    strF jump c = Ok s → sound (length h) y = true ∧ ∃ s', strF jump y = Ok s'.
  Proof.
    intros Hp Hc Hj. revert Hc s. induction Hp; cbn [sound]; intros Hc s Hs; cbn [cstring_F] in Hs.
    - by eauto.
    - apply obind_Ok_inv in Hs as (ss & Hs & _). apply omapM_elem with (x := x) in Hs as [? ?]; [|done].
      rewrite forallb_Forall, Forall_forall in Hc. eauto.
    - apply obind_Ok_inv in Hs as (ss & Hs & _). apply omapM_elem with (x := x) in Hs as [? ?]; [|done].
      rewrite forallb_Forall, Forall_forall in Hc. eauto.
    - apply obind_Ok_inv in Hs as (ss & Hs & _). apply omapM_elem with (x := x) in Hs as [? ?]; [|done].
      rewrite forallb_Forall, Forall_forall in Hc. eauto.
    - apply obind_Ok_inv in Hs as (ss & Hs & _). apply omapM_elem with (x := x) in Hs as [? ?]; [|done].
      rewrite forallb_Forall, Forall_forall in Hc. eauto.
    - rewrite !andb_true_iff in Hc. destruct_and!. eauto.
    - eauto.
    - apply andb_true_iff in Hc as [Hc _]. eauto.
    - apply obind_Ok_inv in Hs as (ss & Hs & _). apply omapM_elem with (x := r) in Hs as [? Hs]; [|done].
      apply omapM_elem with (x := x) in Hs as [? ?]; [|done].
      rewrite forallb_Forall, Forall_forall in Hc. specialize (Hc r ltac:(done)). rewrite forallb_Forall, Forall_forall in Hc. eauto.
    - apply obind_Ok_inv in Hs as (ss & Hs & _). apply omapM_elem with (x := p) in Hs as [? Hs]; [|done]. destruct p as [a b].
      rewrite forallb_Forall, Forall_forall in Hc. specialize (Hc _ ltac:(done)). simpl in *. apply andb_true_iff in Hc as [Ha Hb].
      apply obind_Ok_inv in Hs as (sa & Hs & _). apply fmt_Ok_inv in Hs; [eauto|]. by apply cstring_F_no_panic.
    - apply obind_Ok_inv in Hs as (ss & Hs & _). apply omapM_elem with (x := p) in Hs as [? Hs]; [|done]. destruct p as [a b].
      rewrite forallb_Forall, Forall_forall in Hc. specialize (Hc _ ltac:(done)). simpl in *. apply andb_true_iff in Hc as [Ha Hb].
      apply obind_Ok_inv in Hs as (sa & _ & Hs). apply obind_Ok_inv in Hs as (sb & Hs & _).
      apply fmt_Ok_inv in Hs; [eauto|]. by apply cstring_F_no_panic.
    - eauto.
  Qed.

  Lemma strF_shown jump c c' s : shows h c c' → sound (length h) c = true → (∀ c, sound (length h) c = true → jump c ≠ Panic) →
    strF jump c = Ok s → sound (length h) c' = true ∧ ∃ s', jump c' = Ok s'.
  Proof.
    intros (sec & name & opt & l & t & Hp & A & Ht) Hc Hj Hs. destruct (strF_part _ _ _ _ Hp Hc Hj Hs) as [Hr [s' Hs']].
    cbn [sound] in Hr. rewrite !andb_true_iff, Nat.ltb_lt, negb_true_iff in Hr. destruct Hr as [[Hsec ->] _].
    cbn [cstring_F] in Hs'. pose proof (sturdy_ref_tag similar broken h sec name l S Hsec) as Hr.
    rewrite (ref_one _ _ _ _ t) in Hs', Hr by done. rewrite Ht in Hs', Hr. destruct Hr as (? & [= <-] & ?). eauto.
  Qed.

  Lemma shows_sound c c' : shows h c c' → sound (length h) c = true → sound (length h) c' = true.
  Proof.
    intros (sec & name & opt & l & t & Hp & A & Ht) _.
    assert (t ∈ [t]) as Hin by by left. rewrite (all_tags_elem _ _ _ _ _ A) in Hin. destruct Hin as (i & x & _ & Hx & Hin & _).
    destruct (S _ _ Hx) as (_ & _ & _ & HT & _). rewrite Forall_forall in HT. destruct (HT _ Hin) as [_ (c1 & E & Hc1)]. congruence.
  Qed.

  Lemma grounded_ends c : grounded h c → sound (length h) c = true → ∃ n s, str n c = Ok s.
  Proof.
    induction 1 as [c _ IH]. intros Hc. destruct (fine_shown c Hc) as [n [s Hs]]; [|by exists (Datatypes.S n), s].
    intros c' Hsh. apply IH; [done|]. by eapply shows_sound.
  Qed.
  Lemma ends_grounded n : ∀ c s, str n c = Ok s → sound (length h) c = true → grounded h c.
  Proof.
    induction n as [|n IH]; intros c s Hs Hc; constructor; intros c' Hsh; cbn [cstring] in Hs.
    - destruct (strF_shown (λ _, NoFuel) _ _ s Hsh Hc) as [_ [s' [=]]]; done.
    - destruct (strF_shown (str n) _ _ s Hsh Hc) as [Hc' [s' Hs']]; [intros; by apply cstring_no_panic|done|]. by eapply IH.
  Qed.

  Lemma str_cases n c : sound (length h) c = true → (∃ s, str n c = Ok s) ∨ str n c = NoFuel.
  Proof.
    intros Hc. pose proof (cstring_no_panic similar broken h n c S Hc). pose proof (λ e, cstring_no_err similar broken h n c e).
    destruct (str n c); [eauto|naive_solver|done|by right].
  Qed.
End string.
