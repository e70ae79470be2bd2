(** Evaluating the syntax tree of a book (Book.v). *)
From Coq Require Import Ascii String.
From stdpp Require Import base tactics relations strings list.
From Verif Require Import GoBase Ast Grammar Content ContentSpec ContentProofs Section StrProofs TreeSpec TreeProofs TagProofs QueryProofs
  Evaluate EvalProofs EvalFrame EvalInv EvalSpec EvalTheory BaseSpec BaseRuns Book.
Local Open Scope string_scope. Local Open Scope list_scope.

(** ** Induction *)

Section span_ind.
  Context (P : span → Prop).
  Context (Htxt : ∀ t, P (Txt t)).
  Context (Hsty : ∀ k l, Forall P l → P (Sty k l)).
  Context (Hlnk : ∀ l u, Forall P l → P (Lnk l u)).
  Context (Himg : ∀ p d, P (Img p d)).
  Context (Href : ∀ t l, Forall P l → P (Ref t l)).
  Context (Hanc : ∀ t l, Forall P l → P (Anc t l)).
  Fixpoint span_ind' (w : span) : P w :=
    let all := fix all (l : list span) : Forall P l :=
      match l with [] => Forall_nil_2 P | x :: l => Forall_cons_2 P x l (span_ind' x) (all l) end in
    match w with
    | Txt t => Htxt t
    | Sty k l => Hsty k l (all l)
    | Lnk l u => Hlnk l u (all l)
    | Img p d => Himg p d
    | Ref t l => Href t l (all l)
    | Anc t l => Hanc t l (all l)
    end.
End span_ind.

Section sec_ind.
  Context (P : sec → Prop).
  Context (Hsec : ∀ title tags split omit body subs, Forall P subs → P (Sec title tags split omit body subs)).
  Fixpoint sec_ind' (b : sec) : P b :=
    match b with
    | Sec title tags split omit body subs =>
        Hsec title tags split omit body subs
          ((fix all (l : list sec) : Forall P l :=
              match l with [] => Forall_nil_2 P | x :: l => Forall_cons_2 P x l (sec_ind' x) (all l) end) subs)
    end.
End sec_ind.

(** ** Content *)

Definition look_style (k : look) : string :=
  match k with
  | Bold => "bold" | Italic => "italic" | Larger => "larger" | Smaller => "smaller" | Strike => "strike"
  | Superscript => "superscript" | Subscript => "subscript" | Code => "verbatim" | Inset => "inset" | Aside => "aside"
  end.

(** The contents of words in section [i], for any locations. *)
Inductive span_is (i : nat) : span → content → Prop :=
| is_txt t : span_is i (Txt t) (CString t)
| is_sty k l cs c : Forall2 (span_is i) l cs → joined cs = Some c →
    span_is i (Sty k l) (CStyled (look_style k) false c [])
| is_lnk l u cs c : Forall2 (span_is i) l cs → joined cs = Some c → span_is i (Lnk l u) (CLink c u)
| is_img p d : span_is i (Img p d) (CImage p d)
| is_ref t l cs lc : Forall2 (span_is i) l cs → span_is i (Ref t l) (CRef i t (joined cs) false lc)
| is_anc t l cs lc c : Forall2 (span_is i) (anchor_title t l) cs → joined cs = Some c →
    span_is i (Anc t l) (CTarget t lc (Some c) None).

Definition line_is (i : nat) (l : list span) (c : content) : Prop :=
  ∃ cs, Forall2 (span_is i) l cs ∧ joined cs = Some c.

Inductive piece_is (i : nat) : piece → content → Prop :=
| is_par lines cs : Forall2 (line_is i) lines cs → piece_is i (Par lines) (CPara cs)
| is_lst o items cs : Forall2 (line_is i) items cs → piece_is i (Lst o items) (CList cs o)
| is_cod lines cs : Forall2 (line_is i) lines cs → piece_is i (Cod lines) (CStyled "verbatim" false (CPre cs) [])
| is_tbl rows css : Forall2 (Forall2 (line_is i)) rows css → piece_is i (Tbl rows) (CTable css)
| is_dfs defs cs : Forall2 (λ d c, line_is i (fst d) (fst c) ∧ line_is i (snd d) (snd c)) defs cs →
    piece_is i (Dfs defs) (CDefs cs)
| is_toc : piece_is i Toc (CToc i).

(** ** Evaluating words *)

(** Only the location of the last call changes. *)
Definition near (i : nat) (s s' : st) : Prop := ∃ l, s' = touch i l s.

Lemma touch_touch i l l' s : touch i l (touch i l' s) = touch i l s.
Proof.
  unfold touch. simpl. f_equal. apply list_eq. intros j. rewrite !upd_lookup.
  destruct (decide (i = j)); [|done]. by destruct (st_heap s !! j).
Qed.
Lemma near_refl i s x : st_heap s !! i = Some x → near i s s.
Proof.
  intros Hx. exists (s_invloc x). destruct s as [h k]. unfold touch. simpl in *. f_equal. apply list_eq. intros j. rewrite upd_lookup.
  destruct (decide (i = j)) as [<-|]; [|done]. rewrite Hx. simpl. by destruct x.
Qed.
Lemma near_trans i s1 s2 s3 : near i s1 s2 → near i s2 s3 → near i s1 s3.
Proof. intros [l ->] [l' ->]. rewrite touch_touch. by eexists. Qed.
Lemma near_touch i l s : near i s (touch i l s).
Proof. by eexists. Qed.

(** The section being evaluated uses the base plugin. *)
Definition based (i : nat) (s : st) : Prop := ∃ x, st_heap s !! i = Some x ∧ s_factories x = [FBase].
Lemma near_based i s s' : near i s s' → based i s → based i s'.
Proof.
  intros [l ->] (x & Hx & Hf). exists (set_invloc x l). split; [|done]. simpl. rewrite upd_lookup. rewrite decide_True by done. by rewrite Hx.
Qed.

Section words.
  Context (E : env) (HE : base_env E) (i : nat).
  Notation Y := (yields E i (runs E i)).
  Notation Yall := (yields_all E i (runs E i)).
  Notation Ylines := (yields_lines E i (runs E i)).
  Notation Yarg := (yields_arg E i (runs E i)).
  Notation Yargs := (yields_args E i (runs E i)).

  Lemma base_dispatch fn m : base_method (method_name fn) = Some m → dispatches E (method_name fn) [FBase] m.
  Proof. intros Hm. constructor. by rewrite HE. Qed.

  (** A call whose body is a value. *)
  Lemma call_value fn m args l s s1 argv rets cs :
    base_method (method_name fn) = Some m → based i s → accepts m (length args) →
    Yargs (touch i l s) m 0 args s1 argv → ACon None ∉ argv →
    (∀ x, st_heap s1 !! i = Some x → run_prog E (eval E 0) i (m_body m i argv) s1 = (s1, Ok (rets x))) →
    based i s1 → (∀ x, returns (rets x) (cs x)) →
    ∃ x, st_heap s1 !! i = Some x ∧ Y s (NInvoke fn args l) s1 (cs x).
  Proof.
    intros Hm (x & Hx & Hf) Ha HY Hz Hr (y & Hy & _) Hret. exists y. split; [done|].
    eapply (yields_invoke E i (runs E i)); [exact Hx| |exact Ha|exact HY|exact Hz| |apply Hret].
    - rewrite Hf. by apply base_dispatch.
    - exists 0. by apply Hr.
  Qed.

  (** Words and all, one after the other. *)
  Definition Espan (w : span) : Prop := ∀ s nd, based i s → erase nd = span_tree w →
    ∃ s' c, Y s nd s' [c] ∧ span_is i w c ∧ near i s s'.

  Lemma eval_spans l : Forall Espan l → ∀ s nds, based i s → map erase nds = map span_tree l →
    ∃ s' cs, Yall s nds s' cs ∧ Forall2 (span_is i) l cs ∧ near i s s'.
  Proof.
    induction 1 as [|w l Hw Hl IH]; intros s nds Hb He.
    - destruct nds; [|done]. exists s, []. split; [constructor|]. split; [constructor|]. destruct Hb as (x & Hx & _). by eapply near_refl.
    - destruct nds as [|nd nds]; [done|]. simpl in He. injection He as He1 He2.
      destruct (Hw s nd Hb He1) as (s1 & c & Y1 & S1 & N1).
      destruct (IH s1 nds) as (s2 & cs & Y2 & S2 & N2); [by eapply near_based|done|].
      exists s2, (c :: cs). split; [by apply (yields_cons _ _ _ s nd nds s1 s2 [c] cs)|]. split; [by constructor|]. by eapply near_trans.
  Qed.

  Lemma eval_seq l : Forall Espan l → ∀ s nd, based i s → erase nd = NSeq (map span_tree l) →
    ∃ s' cs, Y s nd s' cs ∧ Forall2 (span_is i) l cs ∧ near i s s'.
  Proof.
    intros Hl s nd Hb He. destruct nd as [| | | |]; try done. simpl in He. injection He as He.
    destruct (eval_spans l Hl s _ Hb He) as (s' & cs & HY & HS & HN). exists s', cs. split; [by constructor|done].
  Qed.

  Lemma joined_some l cs : some l = true → Forall2 (span_is i) l cs → ∃ c, joined cs = Some c.
  Proof. intros Hs F. destruct F as [|w c l' [|c' cs'] ? F]; [done| |]; simpl; eauto. Qed.

  (** A word's contents are never a sequence. *)
  Lemma eval_con_arg l : Forall Espan l → some l = true → ∀ s nd, based i s → erase nd = line_tree l →
    ∃ s' c, Yarg s TCon nd s' (con c) ∧ line_is i l c ∧ near i s s'.
  Proof.
    intros Hl Hs s nd Hb He. destruct (eval_seq l Hl s nd Hb He) as (s' & cs & HY & HS & HN).
    destruct (joined_some l cs Hs HS) as [c Hc]. exists s', c. split; [|split; [by exists cs|done]].
    unfold con. rewrite <- Hc. by constructor.
  Qed.

  Lemma eval_str_arg t : ∀ s nd, based i s → erase nd = NSeq [NString t] → Yarg s TStr nd s (AStr t).
  Proof.
    intros s nd Hb He. destruct nd as [|l| | |]; try done. simpl in He. injection He as He.
    destruct l as [|nd [|? ?]]; try done. simpl in He. injection He as He. destruct nd; try done. simpl in He. injection He as ->.
    eapply (arg_str _ _ _ s (NSeq [NString t]) s [CString t]).
    - constructor. apply (yields_cons _ _ _ s (NString t) [] s s [CString t] []); constructor.
    - done.
    - unfold str. by destruct (e_jumps E).
  Qed.

  (** A call with contents for arguments. *)
  Lemma eval_con_args m ty ls k : (∀ j, k ≤ j → param m j ty) → ty = TCon → Forall (λ l, Forall Espan l ∧ some l = true) ls →
    ∀ s nds, based i s → map erase nds = map line_tree ls →
    ∃ s' cs, Yargs s m k nds s' (map con cs) ∧ Forall2 (line_is i) ls cs ∧ near i s s'.
  Proof.
    intros Hp -> Hls. revert k Hp. induction Hls as [|l ls [Hl Hs] _ IH]; intros k Hp s nds Hb He.
    - destruct nds; [|done]. exists s, []. split; [constructor|]. split; [constructor|]. destruct Hb as (x & Hx & _). by eapply near_refl.
    - destruct nds as [|nd nds]; [done|]. simpl in He. injection He as He1 He2.
      destruct (eval_con_arg l Hl Hs s nd Hb He1) as (s1 & c & Y1 & S1 & N1).
      destruct (IH (S k)) with (s := s1) (nds := nds) as (s2 & cs & Y2 & S2 & N2); [intros j Hj; apply Hp; lia|by eapply near_based|done|].
      exists s2, (c :: cs). split; [simpl; econstructor; [by apply Hp|exact Y1|exact Y2]|]. split; [by constructor|]. by eapply near_trans.
  Qed.

  Lemma no_zero cs : ACon None ∉ map con cs.
  Proof. induction cs as [|c cs IH]; simpl; [by apply not_elem_of_nil|]. by apply not_elem_of_cons. Qed.

  (** The value of a call, given its body's. *)
  Lemma eval_call fn m args l s s1 argv c x :
    base_method (method_name fn) = Some m → based i s → accepts m (length args) →
    Yargs (touch i l s) m 0 args s1 argv → ACon None ∉ argv →
    run_prog E (eval E 0) i (m_body m i argv) s1 = (s1, Ok x) → returns x [c] →
    Y s (NInvoke fn args l) s1 [c].
  Proof.
    intros Hm (y & Hy & Hf) Ha HY Hz Hr Hret.
    eapply (yields_invoke E i (runs E i)); [exact Hy| |exact Ha|exact HY|exact Hz|by exists 0|exact Hret].
    rewrite Hf. by apply base_dispatch.
  Qed.

  Lemma param_variadic m ty j : m_variadic m = Some ty → length (m_in m) ≤ j → param m j ty.
  Proof. intros Hv Hj. by right. Qed.

  Lemma given_case l nds : map erase nds = given (map span_tree l) →
    (l = [] ∧ nds = []) ∨ (some l = true ∧ ∃ nd, nds = [nd] ∧ erase nd = line_tree l).
  Proof.
    destruct l as [|w l]; simpl.
    - left. split; [done|]. by destruct nds.
    - right. split; [done|]. destruct nds as [|nd [|? ?]]; try done. simpl in H. exists nd. split; [done|]. by injection H.
  Qed.

  Lemma eval_span w : span_fine w = true → Espan w.
  Proof.
    assert (∀ l, Forall (λ w, span_fine w = true → Espan w) l → forallb span_fine l = true → Forall Espan l) as Hall.
    { intros l Hl Hf. induction Hl as [|w' l' Hw Hl IH]; [constructor|]. simpl in Hf. apply andb_true_iff in Hf as [? ?]. constructor; auto. }
    induction w as [t|k l IH|l u IH|p d|t l IH|t l IH] using span_ind'; intros Hf s nd Hb He; simpl in Hf.
    - destruct nd; try done. simpl in He. injection He as ->. exists s, (CString t). split; [constructor|]. split; [constructor|].
      destruct Hb as (x & Hx & _). by eapply near_refl.
    - apply andb_true_iff in Hf as [Hs Hf]. specialize (Hall l IH Hf).
      destruct nd as [| | | |fn args lc]; try done. simpl in He. injection He as -> He.
      destruct args as [|a [|? ?]]; try done. simpl in He. injection He as He.
      destruct (eval_con_arg l Hall Hs (touch i lc s) a) as (s1 & c & Y1 & (cs & F & J) & N1); [by eapply near_based; [apply near_touch|]|done|].
      exists s1, (CStyled (look_style k) false c []). split; [|split; [by econstructor|by eapply near_trans; [apply near_touch|]]].
      eapply (eval_call (look_function k) (styled_method (look_style k))); [by destruct k|done|done| |by apply (no_zero [c])| |constructor].
      + eapply (args_cons E i (runs E i)); [by left|exact Y1|constructor].
      + done.
    - apply andb_true_iff in Hf as [Hs Hf]. specialize (Hall l IH Hf).
      destruct nd as [| | | |fn args lc]; try done. simpl in He. injection He as -> He.
      destruct args as [|a [|a' [|? ?]]]; try done. simpl in He. injection He as He He'.
      destruct (eval_con_arg l Hall Hs (touch i lc s) a) as (s1 & c & Y1 & (cs & F & J) & N1); [by eapply near_based; [apply near_touch|]|done|].
      assert (based i s1) as Hb1 by (eapply near_based; [eapply near_trans; [apply near_touch|exact N1]|done]).
      exists s1, (CLink c u). split; [|split; [by econstructor|by eapply near_trans; [apply near_touch|]]].
      eapply (eval_call "link" m_link); [done|done|done| | | |constructor].
      + eapply (args_cons E i (runs E i)); [by left|exact Y1|]. eapply (args_cons E i (runs E i)); [by left|by apply (eval_str_arg u)|constructor].
      + apply not_elem_of_cons. split; [done|]. apply not_elem_of_cons. split; [done|]. by apply not_elem_of_nil.
      + done.
    - destruct nd as [| | | |fn args lc]; try done. simpl in He. injection He as -> He.
      destruct args as [|a args]; try done. simpl in He. injection He as He He'.
      assert (based i (touch i lc s)) as Hb1 by (by eapply near_based; [apply near_touch|]).
      exists (touch i lc s), (CImage p d). split; [|split; [constructor|apply near_touch]].
      destruct (String.eqb_spec d "") as [->|Hd].
      + destruct args; [|done]. eapply (eval_call "image" m_image); [done|done| | | | |constructor].
        * simpl. unfold accepts. simpl. lia.
        * eapply (args_cons E i (runs E i)); [by left|by apply (eval_str_arg p)|constructor].
        * apply not_elem_of_cons. split; [done|]. by apply not_elem_of_nil.
        * done.
      + destruct args as [|a' [|? ?]]; try done. simpl in He'. injection He' as He'.
        eapply (eval_call "image" m_image); [done|done| | | | |constructor].
        * simpl. unfold accepts. simpl. lia.
        * eapply (args_cons E i (runs E i)); [by left|by apply (eval_str_arg p)|].
          eapply (args_cons E i (runs E i)); [right; simpl; split; [lia|done]|by apply (eval_str_arg d)|constructor].
        * apply not_elem_of_cons. split; [done|]. apply not_elem_of_cons. split; [done|]. by apply not_elem_of_nil.
        * done.
    - apply andb_true_iff in Hf as [_ Hf]. specialize (Hall l IH Hf).
      destruct nd as [| | | |fn args lc]; try done. simpl in He. injection He as -> He.
      destruct args as [|a args]; try done. simpl in He. injection He as He He'.
      assert (based i (touch i lc s)) as Hb1 by (by eapply near_based; [apply near_touch|]).
      apply given_case in He' as [[-> ->]|(Hs & nd & -> & He')].
      + destruct Hb1 as (x & Hx & Hfx). exists (touch i lc s), (CRef i t (joined []) false (s_invloc x)).
        split; [|split; [by constructor|apply near_touch]].
        eapply (eval_call "reference" m_reference); [done|done| | | | |constructor].
        * simpl. unfold accepts. simpl. lia.
        * eapply (args_cons E i (runs E i)); [by left|apply (eval_str_arg t); [by exists x|done]|constructor].
        * apply not_elem_of_cons. split; [done|]. by apply not_elem_of_nil.
        * simpl. unfold getself. simpl. unfold Evaluate.mbind, mheap. rewrite Hx. done.
      + destruct (eval_con_arg l Hall Hs (touch i lc s) nd Hb1 He') as (s1 & c & Y1 & (cs & F & J) & N1).
        destruct (near_based _ _ _ N1 Hb1) as (x & Hx & Hfx). exists s1, (CRef i t (joined cs) false (s_invloc x)).
        split; [|split; [by constructor|by eapply near_trans; [apply near_touch|]]].
        eapply (eval_call "reference" m_reference); [done|done| | | | |constructor].
        * simpl. unfold accepts. simpl. lia.
        * eapply (args_cons E i (runs E i)); [by left|by apply (eval_str_arg t)|].
          eapply (args_cons E i (runs E i)); [right; simpl; split; [lia|done]|exact Y1|constructor].
        * apply not_elem_of_cons. split; [done|]. apply not_elem_of_cons. split; [done|]. by apply not_elem_of_nil.
        * simpl. unfold getself. simpl. unfold Evaluate.mbind, mheap. rewrite Hx, J. done.
    - apply andb_true_iff in Hf as [_ Hf]. specialize (Hall l IH Hf).
      destruct nd as [| | | |fn args lc]; try done. simpl in He. injection He as -> He.
      destruct args as [|a args]; try done. simpl in He. injection He as He He'.
      assert (based i (touch i lc s)) as Hb1 by (by eapply near_based; [apply near_touch|]).
      apply given_case in He' as [[-> ->]|(Hs & nd & -> & He')].
      + destruct Hb1 as (x & Hx & Hfx). exists (touch i lc s), (CTarget t (s_invloc x) (Some (CString t)) None).
        split; [|split; [|apply near_touch]].
        2:{ apply (is_anc i t [] [CString t]); [|done]. constructor; constructor. }
        eapply (eval_call "target" m_target); [done|done| | | | |constructor].
        * simpl. unfold accepts. simpl. lia.
        * eapply (args_cons E i (runs E i)); [by left|apply (eval_str_arg t); [by exists x|done]|constructor].
        * apply not_elem_of_cons. split; [done|]. by apply not_elem_of_nil.
        * simpl. unfold getself. simpl. unfold Evaluate.mbind, mheap. rewrite Hx. done.
      + destruct (eval_con_arg l Hall Hs (touch i lc s) nd Hb1 He') as (s1 & c & Y1 & (cs & F & J) & N1).
        destruct (near_based _ _ _ N1 Hb1) as (x & Hx & Hfx). exists s1, (CTarget t (s_invloc x) (Some c) None).
        split; [|split; [|by eapply near_trans; [apply near_touch|]]].
        2:{ apply (is_anc i t l cs); [|done]. by destruct l. }
        eapply (eval_call "target" m_target); [done|done| | | | |constructor].
        * simpl. unfold accepts. simpl. lia.
        * eapply (args_cons E i (runs E i)); [by left|by apply (eval_str_arg t)|].
          eapply (args_cons E i (runs E i)); [right; simpl; split; [lia|done]|exact Y1|constructor].
        * apply not_elem_of_cons. split; [done|]. apply not_elem_of_cons. split; [done|]. by apply not_elem_of_nil.
        * simpl. unfold getself. simpl. unfold Evaluate.mbind, mheap. rewrite Hx. done.
  Qed.

  Lemma line_spans l : line_fine l = true → Forall Espan l ∧ some l = true.
  Proof.
    unfold line_fine. intros [Hs Hf]%andb_true_iff. split; [|done].
    apply Forall_forall. intros w Hw. apply eval_span.
    rewrite forallb_forall in Hf. apply Hf. by apply elem_of_list_In.
  Qed.

  (** Words are in line. *)
  Lemma span_flow w c : span_is i w c → is_flow c = true.
  Proof.
    revert c. assert (∀ l, Forall (λ w, ∀ c, span_is i w c → is_flow c = true) l → ∀ cs c, Forall2 (span_is i) l cs → joined cs = Some c → is_flow c = true) as Hall.
    { intros l Hl cs c F J. assert (Forall (λ c, is_flow c = true) cs) as HF.
      { clear J. revert cs F. induction Hl as [|w' l' Hw Hl IH]; intros cs F; inversion F; subst; constructor; eauto. }
      destruct cs as [|c1 [|c2 cs]]; simpl in J; [done|injection J as <-; by inversion HF|]. injection J as <-. simpl.
      apply forallb_forall. intros x Hx%elem_of_list_In. inversion HF as [|? ? H1 HF']; subst.
      apply elem_of_app in Hx as [Hx|Hx]; [|by eapply Forall_forall in HF'].
      unfold elements in Hx. destruct c1; try (apply elem_of_list_singleton in Hx as ->; done).
      simpl in H1. rewrite forallb_forall in H1. apply H1. by apply elem_of_list_In. }
    induction w as [t|k l IH|l u IH|p d|t l IH|t l IH] using span_ind'; intros c Hc; inversion Hc; subst; try done; simpl; eauto.
  Qed.
  Lemma line_flow l c : line_is i l c → is_flow c = true.
  Proof.
    intros (cs & F & J). assert (Forall (λ c, is_flow c = true) cs) as HF.
    { clear J. induction F; constructor; [by eapply span_flow|done]. }
    destruct cs as [|c1 [|c2 cs]]; simpl in J; [done|injection J as <-; by inversion HF|]. injection J as <-. simpl.
    apply forallb_forall. intros x Hx%elem_of_list_In. inversion HF as [|? ? H1 HF']; subst.
    apply elem_of_app in Hx as [Hx|Hx]; [|by eapply Forall_forall in HF'].
    unfold elements in Hx. destruct c1; try (apply elem_of_list_singleton in Hx as ->; done).
    simpl in H1. rewrite forallb_forall in H1. apply H1. by apply elem_of_list_In.
  Qed.

  Lemma eval_lines ls : Forall (λ l, Forall Espan l ∧ some l = true) ls → ∀ s lines, based i s →
    map (map erase) lines = map (map span_tree) ls →
    ∃ s' css, Ylines s lines s' css ∧ Forall2 (line_is i) ls (omap joined css) ∧ near i s s'.
  Proof.
    induction 1 as [|l ls [Hl Hs] Hls IH]; intros s lines Hb He.
    - destruct lines; [|done]. exists s, []. split; [constructor|]. split; [constructor|]. destruct Hb as (x & Hx & _). by eapply near_refl.
    - destruct lines as [|nds lines]; [done|]. simpl in He. injection He as He1 He2.
      destruct (eval_spans l Hl s nds Hb He1) as (s1 & cs & Y1 & S1 & N1).
      destruct (IH s1 lines) as (s2 & css & Y2 & S2 & N2); [by eapply near_based|done|].
      destruct (joined_some l cs Hs S1) as [c Hc].
      exists s2, (cs :: css). split; [by econstructor|]. simpl. rewrite Hc. split; [|by eapply near_trans].
      constructor; [by exists cs|done].
  Qed.

  (** A paragraph with one call in it. *)
  Lemma eval_para_call s s' nd c : Y s nd s' [c] → is_flow c = false → Y s (NPara [[nd]]) s' [c].
  Proof.
    intros HY Hf. change [c] with (([c] : list content)).
    assert (block (omap joined [[c]]) = [c]) as Hb by (simpl; by rewrite Hf). rewrite <- Hb. constructor.
    econstructor; [|constructor]. apply (yields_cons _ _ _ s nd [] s' s' [c] []); [done|constructor].
  Qed.
  Lemma one_call lines n : map (map erase) lines = [[n]] → ∃ nd, lines = [[nd]] ∧ erase nd = n.
  Proof.
    destruct lines as [|[|nd [|? ?]] [|? ?]]; try done. simpl. intros [= <-]. eauto.
  Qed.

  Definition Epiece (p : piece) : Prop := ∀ s lines, based i s → map (map erase) lines = piece_tree p →
    ∃ s' c, Y s (NPara lines) s' [c] ∧ piece_is i p c ∧ near i s s'.

  Lemma lines_fine ls : forallb line_fine ls = true → Forall (λ l, Forall Espan l ∧ some l = true) ls.
  Proof.
    intros Hf. apply Forall_forall. intros l Hl. apply line_spans. rewrite forallb_forall in Hf. apply Hf. by apply elem_of_list_In.
  Qed.
  Lemma lines_length ls cs : Forall2 (line_is i) ls cs → length cs = length ls.
  Proof. intros F. symmetry. by eapply Forall2_length. Qed.

  (** A call of a function that makes content of its arguments, all of them contents. *)
  Lemma eval_con_call {A} (T : A → node) (R : A → content → Prop) fn m xs s nd c0 : base_method (method_name fn) = Some m →
    (∀ j, j < length xs → param m j TCon) → accepts m (length xs) →
    (∀ x, x ∈ xs → ∀ s a, based i s → erase a = T x → ∃ s' c, Yarg s TCon a s' (con c) ∧ R x c ∧ near i s s') →
    (∀ cs s1, Forall2 R xs cs → ∃ rets, run_prog E (eval E 0) i (m_body m i (map con cs)) s1 = (s1, Ok rets) ∧ returns rets [c0 cs]) →
    based i s → erase nd = call fn (map T xs) →
    ∃ s' cs, Y s nd s' [c0 cs] ∧ Forall2 R xs cs ∧ near i s s'.
  Proof.
    intros Hm Hp Ha HR Hr Hb He. destruct nd as [| | | |fn' args lc]; try done. simpl in He. injection He as -> He.
    assert (based i (touch i lc s)) as Hb1 by (by eapply near_based; [apply near_touch|]).
    assert (∃ s' cs, Yargs (touch i lc s) m 0 args s' (map con cs) ∧ Forall2 R xs cs ∧ near i (touch i lc s) s') as (s' & cs & YA & F & N).
    { assert (∀ k, (∀ j, j < length xs → param m (k + j) TCon) → ∀ s nds, based i s → map erase nds = map T xs →
        ∃ s' cs, Yargs s m k nds s' (map con cs) ∧ Forall2 R xs cs ∧ near i s s') as Hgo; [|by apply (Hgo 0)].
      clear - HR HE. induction xs as [|x xs IH]; intros k Hp s nds Hb He.
      - destruct nds; [|done]. exists s, []. split; [constructor|]. split; [constructor|]. destruct Hb as (x & Hx & _). by eapply near_refl.
      - destruct nds as [|nd nds]; [done|]. simpl in He. injection He as He1 He2.
        destruct (HR x (elem_of_list_here _ _) s nd Hb He1) as (s1 & c & Y1 & S1 & N1).
        destruct (IH (λ y Hy, HR y (elem_of_list_further _ _ _ Hy)) (S k)) with (s := s1) (nds := nds) as (s2 & cs & Y2 & S2 & N2); [|by eapply near_based|done|].
        { intros j Hj. replace (S k + j) with (k + S j) by lia. apply Hp. simpl. lia. }
        exists s2, (c :: cs). split; [|split; [by constructor|by eapply near_trans]].
        simpl. econstructor; [|exact Y1|exact Y2]. replace k with (k + 0) by lia. apply Hp. simpl. lia. }
    exists s', cs. split; [|split; [done|by eapply near_trans; [apply near_touch|]]].
    destruct (Hr cs s' F) as (rets & Hrun & Hret).
    eapply (eval_call fn m); [done|done| |exact YA|apply no_zero|exact Hrun|exact Hret].
    apply (f_equal length) in He. rewrite !map_length in He. by rewrite He.
  Qed.

  Lemma line_arg l : line_fine l = true → ∀ s nd, based i s → erase nd = line_tree l →
    ∃ s' c, Yarg s TCon nd s' (con c) ∧ line_is i l c ∧ near i s s'.
  Proof. intros [Hl Hs]%line_spans. by apply eval_con_arg. Qed.
  Lemma lines_arg ls : forallb line_fine ls = true → ∀ l, l ∈ ls → ∀ s nd, based i s → erase nd = line_tree l →
    ∃ s' c, Yarg s TCon nd s' (con c) ∧ line_is i l c ∧ near i s s'.
  Proof. intros Hf l Hl. apply line_arg. rewrite forallb_forall in Hf. apply Hf. by apply elem_of_list_In. Qed.

  (** A call alone in an argument. *)
  Lemma call_arg n (R : content → Prop) s nd : (∀ s a, based i s → erase a = n → ∃ s' c, Y s a s' [c] ∧ R c ∧ near i s s') →
    based i s → erase nd = NSeq [n] → ∃ s' c, Yarg s TCon nd s' (con c) ∧ R c ∧ near i s s'.
  Proof.
    intros Hn Hb He. destruct nd as [|l| | |]; try done. simpl in He. injection He as He. destruct l as [|a [|? ?]]; try done.
    simpl in He. injection He as He. destruct (Hn s a Hb He) as (s' & c & HY & HR & N). exists s', c. split; [|done].
    apply (arg_con E i (runs E i) _ _ _ [c]). constructor. apply (yields_cons _ _ _ s a [] s' s' [c] []); [done|constructor].
  Qed.

  Lemma eval_piece p : piece_fine p = true → Epiece p.
  Proof.
    destruct p as [lines|o items|lines|rows|defs|]; intros Hf s nds Hb He; simpl in Hf.
    - apply andb_true_iff in Hf as [Hs Hf].
      destruct (eval_lines lines (lines_fine _ Hf) s nds Hb He) as (s' & css & YL & F & N).
      exists s', (CPara (omap joined css)). split; [|split; [by constructor|done]].
      assert (block (omap joined css) = [CPara (omap joined css)]) as <-; [|by constructor].
      destruct F as [|l c ls cs Hc F]; [done|]. destruct F; [|done]. simpl. by rewrite (line_flow _ _ Hc).
    - apply one_call in He as (nd & -> & He).
      destruct (eval_con_call line_tree (line_is i) (if o then "ordered-list" else "list") (list_method o) items s nd (λ cs, CList cs o)) as (s' & cs & HY & F & N); try done.
      + by destruct o.
      + intros j _. right. simpl. split; [lia|done].
      + unfold accepts. simpl. lia.
      + by apply lines_arg.
      + intros cs s1 _. eexists. split; [simpl; rewrite con_args_con; done|constructor].
      + exists s', (CList cs o). split; [by apply eval_para_call|]. split; [by constructor|done].
    - apply one_call in He as (nd & -> & He). destruct nd as [| | | |fn args lc]; try done. simpl in He. injection He as -> He.
      destruct args as [|a [|? ?]]; try done. simpl in He. injection He as He. destruct a as [| | |nlines|]; try done. simpl in He. injection He as He.
      assert (based i (touch i lc s)) as Hb1 by (by eapply near_based; [apply near_touch|]).
      destruct (eval_lines lines (lines_fine _ Hf) _ nlines Hb1 He) as (s' & css & YL & F & N).
      exists s', (CStyled "verbatim" false (CPre (omap joined css)) []). split; [|split; [by constructor|by eapply near_trans; [apply near_touch|]]].
      apply eval_para_call; [|done].
      eapply (eval_call "code" (styled_method "verbatim")); [done|done|done| |by apply (no_zero [CPre (omap joined css)])| |constructor]; [|done].
      eapply (args_cons E i (runs E i)); [by left| |constructor].
      apply (arg_con E i (runs E i) _ _ _ [CPre (omap joined css)]). by constructor.
    - apply one_call in He as (nd & -> & He).
      destruct (eval_con_call (λ row, NSeq [call "table-row" (map line_tree row)]) (λ row c, ∃ cs, c = CList cs false ∧ Forall2 (line_is i) row cs)
        "table" m_table rows s nd (λ cs, CTable (omap as_list cs))) as (s' & cs & HY & F & N); try done.
      + intros j _. right. simpl. split; [lia|done].
      + unfold accepts. simpl. lia.
      + intros row Hrow s1 a Hb1 Ha. rewrite forallb_forall in Hf. specialize (Hf row (proj1 (elem_of_list_In _ _) Hrow)).
        apply (call_arg (call "table-row" (map line_tree row)) (λ c, ∃ cs, c = CList cs false ∧ Forall2 (line_is i) row cs)); [|done|done].
        intros s2 a2 Hb2 He2.
        destruct (eval_con_call line_tree (line_is i) "table-row" (list_method false) row s2 a2 (λ cs, CList cs false)) as (s' & cs & HY & F & N); try done.
        * intros j _. right. simpl. split; [lia|done].
        * unfold accepts. simpl. lia.
        * by apply lines_arg.
        * intros cs s3 _. eexists. split; [simpl; rewrite con_args_con; done|constructor].
        * exists s', (CList cs false). split; [done|]. split; [by exists cs|done].
      + intros cs s1 F. eexists. split; [|apply returns_both]. simpl. rewrite con_args_con.
        assert (∀ acc, table_rows cs acc = inl (CTable (acc ++ omap as_list cs))) as ->; [|done].
        clear -F. induction F as [|row c rows cs (items & -> & Hi) F IH]; intros acc; simpl; [by rewrite (right_id_L [] (++))|].
        rewrite IH. by rewrite <- (assoc_L (++)).
      + exists s', (CTable (omap as_list cs)). split; [by apply eval_para_call|]. split; [|done]. constructor.
        clear -F. induction F as [|row c rows cs (items & -> & Hi) F IH]; simpl; by constructor.
    - apply one_call in He as (nd & -> & He).
      pose (pair_of := λ c, match c with CList [a; b] _ => Some (a, b) | _ => None end).
      destruct (eval_con_call (λ d, NSeq [call "definition" [line_tree (fst d); line_tree (snd d)]])
        (λ (d : list span * list span) c, ∃ a b, c = CList [a; b] false ∧ line_is i (fst d) a ∧ line_is i (snd d) b)
        "definitions" m_definitions defs s nd (λ cs, CDefs (omap pair_of cs))) as (s' & cs & HY & F & N); try done.
      + intros j _. right. simpl. split; [lia|done].
      + unfold accepts. simpl. lia.
      + intros d Hd s1 a Hb1 Ha. rewrite forallb_forall in Hf. specialize (Hf d (proj1 (elem_of_list_In _ _) Hd)). apply andb_true_iff in Hf as [Hf1 Hf2].
        apply (call_arg (call "definition" [line_tree (fst d); line_tree (snd d)]) (λ c, ∃ a b, c = CList [a; b] false ∧ line_is i (fst d) a ∧ line_is i (snd d) b)); [|done|done].
        intros s2 a2 Hb2 He2.
        destruct (eval_con_call line_tree (line_is i) "definition" m_definition [fst d; snd d] s2 a2 (λ cs, CList cs false)) as (s' & cs & HY & F & N); try done.
        * intros j Hj. left. simpl in *. destruct j as [|[|j]]; [done|done|lia].
        * apply lines_arg. simpl. by rewrite Hf1, Hf2.
        * intros cs s3 _. eexists. split; [simpl; rewrite con_args_con; done|constructor].
        * inversion F as [|? c1 ? cs1 F1 F2]; subst. inversion F2 as [|? c2 ? cs2 F3 F4]; subst. inversion F4; subst.
          exists s', (CList [c1; c2] false). split; [done|]. split; [by exists c1, c2|done].
      + intros cs s1 F. eexists. split; [|apply returns_both]. simpl. rewrite con_args_con.
        assert (∀ acc, def_items cs acc = inl (CDefs (acc ++ omap pair_of cs))) as ->; [|done].
        clear -F. induction F as [|d c defs cs (a & b & -> & Ha & Hb) F IH]; intros acc; simpl; [by rewrite (right_id_L [] (++))|].
        rewrite IH. by rewrite <- (assoc_L (++)).
      + exists s', (CDefs (omap pair_of cs)). split; [by apply eval_para_call|]. split; [|done]. constructor.
        clear -F. induction F as [|d c defs cs (a & b & -> & Ha & Hb) F IH]; simpl; by constructor.
    - apply one_call in He as (nd & -> & He). destruct nd as [| | | |fn args lc]; try done. simpl in He. injection He as -> He.
      destruct args; [|done]. exists (touch i lc s), (CToc i). split; [|split; [constructor|apply near_touch]].
      apply eval_para_call; [|done]. eapply (eval_call "table-of-contents" m_toc); [done|done|done|constructor|by apply not_elem_of_nil|done|constructor].
  Qed.
End words.
