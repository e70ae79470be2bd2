(** The executor gives what templates mean. *)
From Coq Require Import Ascii String.
From stdpp Require Import base tactics strings list.
From Verif Require Import GoBase Content Section Render Html Tmpl TmplInd TmplExec TmplMeaning.
Local Open Scope string_scope. Local Open Scope list_scope.

Lemma truth_empty v : truth v = false ↔ empty v.
Proof.
  split.
  - destruct v as [|[]|[]|[]|[]|[]|c| | | |[]|]; simpl; try done; try (intros _; constructor).
    destruct c as [[]|[]|[]|[]| | | | | | | | | |[]| |]; simpl; try done; intros _; constructor.
  - by destruct 1.
Qed.
Lemma truth_full v : truth v = true ↔ ¬ empty v.
Proof. rewrite <- truth_empty. by destruct (truth v). Qed.

Lemma is_val_vcon c v : is_val c v ↔ v = vcon c.
Proof.
  split.
  - destruct 1 as [|c H]; [done|]. destruct c as [| | | | | |i| | | | | | | | |]; try done. by destruct (H i).
  - intros ->. destruct c; try (constructor; done).
Qed.
Lemma vals_vcon l l' : Forall2 is_val l l' ↔ l' = map vcon l.
Proof.
  split.
  - induction 1 as [|c v l l' Hv _ IH]; [done|]. apply is_val_vcon in Hv. simpl. by rewrite Hv, IH.
  - intros ->. induction l; simpl; constructor; [by apply is_val_vcon|done].
Qed.
Lemma defs_vdef l l' : Forall2 is_def l l' ↔ l' = map (λ p, VDef p.1 p.2) l.
Proof.
  split.
  - induction 1 as [|c v l l' Hv _ IH]; [done|]. destruct Hv. simpl. by rewrite IH.
  - intros ->. induction l as [|[]]; simpl; constructor; [constructor|done].
Qed.
Lemma elements_items v l : element_list v l ↔ items v = Some l.
Proof.
  split.
  - by destruct 1 as [|l l' H|l l' H|l l' H|l l' H]; simpl; [|apply vals_vcon in H as ->..|apply defs_vdef in H as ->].
  - destruct v as [| | | | | |c| | | | |]; try done.
    + destruct c; try done; simpl; intros [= <-]; constructor; first [by apply vals_vcon|by apply defs_vdef].
    + simpl. intros [= <-]. constructor.
Qed.

Lemma assoc_bound {e : list (string * val)} {x v} : bound e x v ↔ assoc_get x e = Some v.
Proof.
  split.
  - induction 1 as [x v e|x v y w e Hne _ IH]; simpl.
    + by rewrite String.eqb_refl.
    + destruct (String.eqb_spec y x); congruence.
  - induction e as [|[y w] e IH]; [done|]. simpl. destruct (String.eqb_spec y x) as [->|Hne].
    + intros [= ->]. constructor.
    + intros H. constructor; [congruence|by apply IH].
Qed.

Lemma bind_ok {E A B} (f : A → outcome E B) m b : obind f m = Ok b → ∃ a, m = Ok a ∧ f a = Ok b.
Proof. destruct m; try done. eauto. Qed.

Section exec.
  Context (similar : string → string → bool) (broken : bool) (h : heap) (str : content → outcome error string) (ext : string) (html : bool).
  Context (render : content → rendered) (call : string → val → rendered).
  Notation fieldR := (λ v f args w, member similar broken h str v f args = Ok w).
  Notation funcR := (λ f args w, apply_func h str ext html render f args = Ok w).
  Notation writtenR := (λ x v s, put str html x v = Ok s).
  Notation otherR := (λ n v s, call n v = Ok s).
  Notation members := (members similar broken h str).
  Notation eval_arg := (eval_arg similar broken h str ext html render).
  Notation eval_command := (eval_command similar broken h str ext html render).
  Notation eval_pipe := (eval_pipe similar broken h str ext html render).
  Notation eval := (eval similar broken h str ext html render).
  Notation exec_list := (exec_list similar broken h str ext html render).
  Notation exec_node := (exec_node similar broken h str ext html render call).

  Lemma chain_members v fs args w : chain fieldR v fs args w ↔ members v fs args = Ok w.
  Proof.
    split.
    - induction 1 as [v|v f args w H|v f fs args w x H Hne _ IH]; [done|done|].
      destruct fs as [|g fs]; [done|]. cbn [TmplExec.members]. by rewrite H.
    - revert v. induction fs as [|f fs IH]; intros v.
      + destruct args; [|done]. intros [= ->]. constructor.
      + destruct fs as [|g fs]; [by constructor|]. cbn [TmplExec.members].
        destruct (member similar broken h str v f []) as [x| | |] eqn:E; [|done..]. intros H. econstructor; [done|done|]. by apply IH.
  Qed.

  Lemma value_means e dot :
    (∀ o v, v_operand fieldR funcR e dot o v → eval_arg e dot o = Ok v) ∧
    (∀ l vs, v_args fieldR funcR e dot l vs → omapM (eval_arg e dot) l = Ok vs) ∧
    (∀ l v, v_and fieldR funcR e dot l v → ∃ o l', l = o :: l' ∧ obind (λ v, shortcut false (eval_arg e dot) v l') (eval_arg e dot o) = Ok v) ∧
    (∀ l v, v_or fieldR funcR e dot l v → ∃ o l', l = o :: l' ∧ obind (λ v, shortcut true (eval_arg e dot) v l') (eval_arg e dot o) = Ok v) ∧
    (∀ before c v, v_command fieldR funcR e dot before c v → eval_command e dot (eval_arg e dot) c before = Ok v) ∧
    (∀ before p v, v_pipe fieldR funcR e dot before p v → eval_pipe e dot (eval_arg e dot) p before = Ok v).
  Proof.
    apply v_pipe_all.
    - done.
    - intros fs v H. by apply chain_members.
    - intros x v fs w Hb H. cbn [TmplExec.eval_arg]. apply assoc_bound in Hb as ->. by apply chain_members.
    - done.
    - done.
    - done.
    - done.
    - done.
    - intros p v _ IH. done.
    - done.
    - intros o v l vs _ Ho _ Hl. simpl. rewrite Ho. simpl. by rewrite Hl.
    - intros o v _ Ho. exists o, []. split; [done|]. rewrite Ho. simpl. by destruct (Bool.eqb _ _).
    - intros o l v Hne _ Ho He. exists o, l. split; [done|]. rewrite Ho. apply truth_empty in He. destruct l; simpl; by rewrite He.
    - intros o v l w Hne _ Ho He _ (o' & l' & -> & IH). exists o, (o' :: l'). split; [done|]. rewrite Ho. apply truth_full in He. simpl. by rewrite He.
    - intros o v _ Ho. exists o, []. split; [done|]. rewrite Ho. simpl. by destruct (Bool.eqb _ _).
    - intros o l v Hne _ Ho He. exists o, l. split; [done|]. rewrite Ho. apply truth_full in He. destruct l; simpl; by rewrite He.
    - intros o v l w Hne _ Ho He _ (o' & l' & -> & IH). exists o, (o' :: l'). split; [done|]. rewrite Ho. apply truth_empty in He. simpl. by rewrite He.
    - intros l v _ (o & l' & -> & IH). done.
    - intros l v _ (o & l' & -> & IH). done.
    - intros f l vs before v Ha Ho _ Hl Hf. unfold TmplExec.eval_command. destruct (String.eqb_spec f "and"); [done|]. destruct (String.eqb_spec f "or"); [done|].
      cbn [orb]. rewrite Hl. done.
    - intros fs l vs before v _ Hl Hf. unfold TmplExec.eval_command. rewrite Hl. by apply chain_members.
    - intros x v fs l vs before w Hb _ Hl Hc. destruct fs as [|f fs].
      + inversion Hc as [v' E1 E2 E3 E4| |]; subst. symmetry in E3; apply app_nil in E3 as [-> E3]. destruct before; [done|]. destruct l as [|o l].
        * simpl. apply assoc_bound in Hb as ->. done.
        * simpl in Hl. by destruct (eval_arg e dot o); simpl in Hl; [destruct (omapM (eval_arg e dot) l)|..].
      + unfold TmplExec.eval_command. apply assoc_bound in Hb as ->. rewrite Hl. by apply chain_members.
    - intros o v Ho _ H. by destruct o.
    - intros before c v _ H. simpl. rewrite H. done.
    - intros before c v p w _ H Hne _ IH. simpl. rewrite H. done.
  Qed.
  Lemma pipe_means e dot p v : v_pipe fieldR funcR e dot None p v → eval e dot p = Ok v.
  Proof. apply value_means. Qed.

  (** *** The converse *)

  Section values.
    Context (e : list (string * val)) (dot : val).
    Notation good o := (∀ v, eval_arg e dot o = Ok v → v_operand fieldR funcR e dot o v).

    Lemma args_given l vs : Forall (λ o, good o) l → omapM (eval_arg e dot) l = Ok vs → v_args fieldR funcR e dot l vs.
    Proof.
      intros H. revert vs. induction H as [|o l Ho _ IH]; intros vs.
      - intros [= <-]. constructor.
      - simpl. destruct (eval_arg e dot o) as [v| | |]; simpl; [|done..]. destruct (omapM (eval_arg e dot) l) as [ws| | |]; simpl; [|done..].
        intros [= <-]. constructor; [by apply Ho|by apply IH].
    Qed.
    Lemma and_given o l v w : good o → Forall (λ o, good o) l → eval_arg e dot o = Ok w →
      shortcut false (eval_arg e dot) w l = Ok v → v_and fieldR funcR e dot (o :: l) v.
    Proof.
      intros Ho H. revert o w Ho. induction H as [|o' l Ho' _ IH]; intros o w Ho Hw; cbn [shortcut].
      - destruct (Bool.eqb (truth w) false); intros [= <-]; constructor; by apply Ho.
      - destruct (truth w) eqn:T; cbn [Bool.eqb].
        + intros Hs. apply bind_ok in Hs as (w' & E & Hs). apply truth_full in T.
          apply (v_and_more _ _ _ _ o w); [done|by apply Ho|done|]. by apply (IH o' w').
        + intros [= <-]. apply truth_empty in T. apply v_and_stop; [done|by apply Ho|done].
    Qed.
    Lemma or_given o l v w : good o → Forall (λ o, good o) l → eval_arg e dot o = Ok w →
      shortcut true (eval_arg e dot) w l = Ok v → v_or fieldR funcR e dot (o :: l) v.
    Proof.
      intros Ho H. revert o w Ho. induction H as [|o' l Ho' _ IH]; intros o w Ho Hw; cbn [shortcut].
      - destruct (Bool.eqb (truth w) true); intros [= <-]; constructor; by apply Ho.
      - destruct (truth w) eqn:T; cbn [Bool.eqb].
        + intros [= <-]. apply truth_full in T. apply v_or_stop; [done|by apply Ho|done].
        + intros Hs. apply bind_ok in Hs as (w' & E & Hs). apply truth_empty in T.
          apply (v_or_more _ _ _ _ o w); [done|by apply Ho|done|]. by apply (IH o' w').
    Qed.
    Lemma command_given c before v : Forall (λ o, good o) c → eval_command e dot (eval_arg e dot) c before = Ok v → v_command fieldR funcR e dot before c v.
    Proof.
      intros H. destruct H as [|o l Ho Hl]; [done|].
      assert (∀ (k : list val → got),
        obind (λ vs, k (vs ++ match before with Some v => [v] | None => [] end)) (omapM (eval_arg e dot) l) = Ok v →
        ∃ vs, v_args fieldR funcR e dot l vs ∧ k (vs ++ last_arg before) = Ok v) as Hk.
      { intros k. destruct (omapM (eval_arg e dot) l) as [vs| | |] eqn:E; cbn [obind]; [|done..]. intros Hv. exists vs. split; [by apply args_given|done]. }
      assert ((match l, before with [], None => eval_arg e dot o | _, _ => fails end) = Ok v → l = [] ∧ before = None ∧ v_operand fieldR funcR e dot o v) as Hone.
      { destruct l; [|done]. destruct before; [done|]. intros Hv. split; [done|]. split; [done|]. by apply Ho. }
      destruct o as [|fs|x [|f fs]|f|s|n|b| |p]; cbn [TmplExec.eval_command].
      - intros Hv. apply Hone in Hv as (-> & -> & Hv). by constructor.
      - intros Hv. apply Hk in Hv as (vs & Ha & Hv). econstructor; [done|]. by apply chain_members.
      - intros Hv. apply Hone in Hv as (-> & -> & Hv). inversion Hv as [| |x' v' fs' w' Hb Hc| | | | | |]; subst. econstructor; [done|constructor|done].
      - destruct (assoc_get x e) as [w|] eqn:E; [|done]. apply assoc_bound in E. intros Hv. apply Hk in Hv as (vs & Ha & Hv). econstructor; [done|done|]. by apply chain_members.
      - destruct (String.eqb_spec f "and") as [->|Hand]; [|destruct (String.eqb_spec f "or") as [->|Hor]]; cbn [orb].
        + destruct Hl as [|a l Ha Hl]; [done|]. destruct before; [done|]. 
          intros Hv. apply bind_ok in Hv as (w & E & Hv). constructor. by apply (and_given a l v w).
        + destruct Hl as [|a l Ha Hl]; [done|]. destruct before; [done|]. 
          intros Hv. apply bind_ok in Hv as (w & E & Hv). apply vc_or. by apply (or_given a l v w).
        + intros Hv. apply Hk in Hv as (vs & Ha & Hv). by apply (vc_func _ _ _ _ f l vs).
      - intros Hv. apply Hone in Hv as (-> & -> & Hv). by constructor.
      - intros Hv. apply Hone in Hv as (-> & -> & Hv). by constructor.
      - intros Hv. apply Hone in Hv as (-> & -> & Hv). by constructor.
      - done.
      - intros Hv. apply Hone in Hv as (-> & -> & Hv). by constructor.
    Qed.
    Lemma pipe_given_all p : ∀ before v, Forall (Forall (λ o, good o)) p → p ≠ [] → eval_pipe e dot (eval_arg e dot) p before = Ok v → v_pipe fieldR funcR e dot before p v.
    Proof.
      induction p as [|c p IH]; intros before v H Hne; [done|]. apply Forall_cons in H as [Hc Hp]. cbn [TmplExec.eval_pipe].
      destruct (eval_command e dot (eval_arg e dot) c before) as [w| | |] eqn:E; cbn [obind]; [|done..]. apply command_given in E; [|done].
      destruct p as [|c' p].
      - intros [= ->]. by constructor.
      - intros Hv. apply (vp_more _ _ _ _ before c w); [done|done|]. by apply IH.
    Qed.
    Lemma operand_given o : good o.
    Proof.
      induction o as [|fs|x fs|f|s|n|b| |p IH] using operand_ind'; intros v; cbn [TmplExec.eval_arg].
      - intros [= ->]. constructor.
      - intros H. constructor. by apply chain_members.
      - destruct (assoc_get x e) as [w|] eqn:E; [|done]. apply assoc_bound in E. intros H. econstructor; [done|]. by apply chain_members.
      - by constructor.
      - intros [= <-]. constructor.
      - intros [= <-]. constructor.
      - intros [= <-]. constructor.
      - intros [= <-]. constructor.
      - intros H. constructor. destruct p as [|c p]; [done|]. by apply pipe_given_all.
    Qed.
  End values.
  Lemma pipe_given e dot p v : eval e dot p = Ok v → v_pipe fieldR funcR e dot None p v.
  Proof.
    intros H. destruct p as [|c p]; [done|]. apply pipe_given_all; [|done|done].
    apply Forall_forall. intros c' _. apply Forall_forall. intros o _. apply operand_given.
  Qed.

  Notation meansR := (n_list fieldR funcR writtenR otherR).
  Lemma node_not_decl e dot x s : n_gives fieldR funcR writtenR otherR e dot x s → ∀ v p, x ≠ NDecl v p.
  Proof. by destruct 1. Qed.
  Lemma ranged_binds vs i x e e' : ranged vs i x e e' ↔ binds vs i x e = e'.
  Proof.
    split; [by destruct 1|]. intros <-. destruct vs as [|v [|w r]]; constructor.
  Qed.
  Lemma list_means_all :
    (∀ e dot x s, n_gives fieldR funcR writtenR otherR e dot x s → exec_node e dot x = Ok s) ∧
    (∀ e dot l s, meansR e dot l s → exec_list exec_node dot e l = Ok s) ∧
    (∀ e vs t i l s, n_each fieldR funcR writtenR otherR e vs t i l s →
      exec_range (λ i x, exec_list exec_node x (binds vs i x e) t) i l = Ok s).
  Proof.
    apply n_list_all.
    - done.
    - intros e dot pl p v s Hp Hw. cbn [TmplExec.exec_node]. by rewrite (pipe_means _ _ _ _ Hp).
    - intros e dot p v t f s Hp He _ IH. cbn [TmplExec.exec_node]. rewrite (pipe_means _ _ _ _ Hp). cbn [obind]. by apply truth_full in He as ->.
    - intros e dot p v t f s Hp He _ IH. cbn [TmplExec.exec_node]. rewrite (pipe_means _ _ _ _ Hp). cbn [obind]. by apply truth_empty in He as ->.
    - intros e dot p v t f s Hp He _ IH. cbn [TmplExec.exec_node]. rewrite (pipe_means _ _ _ _ Hp). cbn [obind]. by apply truth_full in He as ->.
    - intros e dot p v t f s Hp He _ IH. cbn [TmplExec.exec_node]. rewrite (pipe_means _ _ _ _ Hp). cbn [obind]. by apply truth_empty in He as ->.
    - intros e dot vs p v l t f s Hp He Hne _ IH. cbn [TmplExec.exec_node]. rewrite (pipe_means _ _ _ _ Hp). cbn [obind]. apply elements_items in He as ->. by destruct l.
    - intros e dot vs p v t f s Hp He _ IH. cbn [TmplExec.exec_node]. rewrite (pipe_means _ _ _ _ Hp). cbn [obind]. by apply elements_items in He as ->.
    - intros e dot name s H. cbn [TmplExec.exec_node obind]. done.
    - intros e dot name p v s Hp H. cbn [TmplExec.exec_node]. by rewrite (pipe_means _ _ _ _ Hp).
    - done.
    - intros e dot x p v l s Hp _ IH. cbn [TmplExec.exec_list]. by rewrite (pipe_means _ _ _ _ Hp).
    - intros e dot x l s t Hx IHx _ IH. pose proof (node_not_decl _ _ _ _ Hx) as Hd.
      assert (exec_list exec_node dot e (x :: l) = obind (λ s, obind (λ t, Ok (s +:+ t)) (exec_list exec_node dot e l)) (exec_node e dot x)) as ->.
      { destruct x; try done. by destruct (Hd v p). }
      rewrite IHx. cbn [obind]. by rewrite IH.
    - done.
    - intros e vs t i x e' s l s' Hr _ IHx _ IH. cbn [exec_range]. apply ranged_binds in Hr as ->. rewrite IHx. cbn [obind]. by rewrite IH.
  Qed.

  Notation ok x := (∀ e dot s, (∀ v p, x ≠ NDecl v p) → exec_node e dot x = Ok s → n_gives fieldR funcR writtenR otherR e dot x s).
  Lemma list_given e dot l s : Forall (λ x, ok x) l → exec_list exec_node dot e l = Ok s → meansR e dot l s.
  Proof.
    intros H. revert e s. induction H as [|x l Hx _ IH]; intros e s.
    - intros [= <-]. constructor.
    - assert ((∃ v p, x = NDecl v p) ∨ (∀ v p, x ≠ NDecl v p)) as [(v & p & ->)|Hd] by (destruct x; eauto; right; done).
      + cbn [TmplExec.exec_list]. destruct (eval e dot p) as [w| | |] eqn:E; cbn [obind]; [|done..]. apply pipe_given in E. intros H. econstructor; [done|by apply IH].
      + assert (exec_list exec_node dot e (x :: l) = obind (λ s, obind (λ t, Ok (s +:+ t)) (exec_list exec_node dot e l)) (exec_node e dot x)) as ->.
        { destruct x; try done. by destruct (Hd v p). }
        destruct (exec_node e dot x) as [a| | |] eqn:E; cbn [obind]; [|done..]. destruct (exec_list exec_node dot e l) as [b| | |] eqn:E'; cbn [obind]; [|done..].
        intros [= <-]. constructor; [by apply Hx|by apply IH].
  Qed.
  Lemma each_given e vs t l : Forall (λ x, ok x) t → ∀ i s, exec_range (λ i x, exec_list exec_node x (binds vs i x e) t) i l = Ok s →
    n_each fieldR funcR writtenR otherR e vs t i l s.
  Proof.
    intros Ht. induction l as [|x l IH]; intros i s; cbn [exec_range].
    - intros [= <-]. constructor.
    - destruct (exec_list exec_node x (binds vs i x e) t) as [a| | |] eqn:E; cbn [obind]; [|done..].
      destruct (exec_range _ (S i) l) as [b| | |] eqn:E'; cbn [obind]; [|done..]. intros [= <-].
      econstructor; [by apply ranged_binds|by apply list_given|by apply IH].
  Qed.
  Lemma node_given x : ok x.
  Proof.
    induction x as [s|x p|v p|p t f Ht Hf|p t f Ht Hf|vs p t f Ht Hf|n p] using node_ind'; intros e dot r Hd; cbn [TmplExec.exec_node].
    - intros [= <-]. constructor.
    - destruct (eval e dot p) as [w| | |] eqn:E; cbn [obind]; [|done..]. apply pipe_given in E. intros H. by econstructor.
    - by destruct (Hd v p).
    - destruct (eval e dot p) as [w| | |] eqn:E; cbn [obind]; [|done..]. apply pipe_given in E. destruct (truth w) eqn:T; intros H.
      + apply truth_full in T. eapply n_if; [done|done|by apply list_given].
      + apply truth_empty in T. eapply n_if_else; [done|done|by apply list_given].
    - destruct (eval e dot p) as [w| | |] eqn:E; cbn [obind]; [|done..]. apply pipe_given in E. destruct (truth w) eqn:T; intros H.
      + apply truth_full in T. eapply n_with; [done|done|by apply list_given].
      + apply truth_empty in T. eapply n_with_else; [done|done|by apply list_given].
    - destruct (eval e dot p) as [w| | |] eqn:E; cbn [obind]; [|done..]. apply pipe_given in E. destruct (items w) as [l|] eqn:I; [|done]. apply elements_items in I.
      destruct l as [|y l]; intros H.
      + eapply n_range_else; [done|done|by apply list_given].
      + eapply n_range; [done|done|done|by apply each_given].
    - destruct p as [p|]; cbn [obind].
      + destruct (eval e dot p) as [w| | |] eqn:E; cbn [obind]; [|done..]. apply pipe_given in E. intros H. by econstructor.
      + intros H. by constructor.
  Qed.

  Lemma exec_means t data s :
    exec similar broken h str ext html render call t data = Ok s ↔ template_gives fieldR funcR writtenR otherR t data s.
  Proof.
    split.
    - intros H. apply list_given; [|done]. apply Forall_forall. intros x _. apply node_given.
    - intros H. apply list_means_all. done.
  Qed.
End exec.
