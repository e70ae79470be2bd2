(** Facts about particular functions of the base plugin, and about file paths
    during evaluation. *)
From Coq Require Import Ascii String.
From stdpp Require Import base tactics relations strings list.
From Verif Require Import GoBase Ast Content ContentSpec ContentProofs Section TreeSpec TreeProofs TagProofs QueryProofs
  Evaluate EvalProofs EvalFrame EvalInv EvalSpec EvalTheory EvalFail StrProofs Paths.
Local Open Scope string_scope.
Local Open Scope list_scope.

(** ** File paths *)

Lemma frame_file_path self h h' : wf h → frame_facts self h h' → ∀ i, valid h i → file_path h' i = file_path h i.
Proof.
  intros W F i. induction (lt_wf i) as [i _ IH]. intros V.
  pose proof (ff_wf _ _ _ F) as W'. pose proof (ff_length _ _ _ F).
  rewrite (file_path_unfold h' W') by (unfold valid in *; lia). rewrite (file_path_unfold h W) by done.
  unfold file_path_F. destruct (lookup_lt_is_Some_2 h i V) as [x Hx].
  assert (∃ x', h' !! i = Some x' ∧ s_path x' = s_path x ∧ s_parent x' = s_parent x) as (x' & Hx' & Hp & Hpar).
  { destruct (decide (i = self)) as [->|Hne].
    - destruct (ff_self _ _ _ F x Hx) as (x' & Hx' & G). exists x'. split; [done|]. split; apply G.
    - exists x. by rewrite (ff_others _ _ _ F) by done. }
  rewrite Hx, Hx'. simpl. rewrite Hp, Hpar. destruct (String.eqb _ _); [|done].
  destruct (s_parent x) as [p|] eqn:Hpx; [|done]. pose proof (wf_parent _ W _ _ _ Hx Hpx). apply IH; [done|]. unfold valid in *. lia.
Qed.

Lemma alloc_file_path h self y : wf (h ++ [y]) → wf h → valid h self → s_parent y = Some self →
  (∀ i, valid h i → file_path (h ++ [y]) i = file_path h i) ∧
  (s_path y = "" → file_path (h ++ [y]) (length h) = file_path h self) ∧
  (s_path y ≠ "" → file_path (h ++ [y]) (length h) = Some (s_path y)).
Proof.
  intros W' W V Hp.
  assert (∀ i, valid h i → file_path (h ++ [y]) i = file_path h i) as Hold.
  { intros i. induction (lt_wf i) as [i _ IH]. intros Vi.
    rewrite (file_path_unfold _ W') by (unfold valid in *; rewrite app_length; simpl; lia).
    rewrite (file_path_unfold h W) by done. unfold file_path_F. rewrite lookup_app_l by done.
    destruct (h !! i) as [x|] eqn:Hx; [|done]. simpl. destruct (String.eqb _ _); [|done].
    destruct (s_parent x) as [p|] eqn:Hpx; [|done]. pose proof (wf_parent _ W _ _ _ Hx Hpx). apply IH; [done|]. unfold valid in *. lia. }
  split; [done|].
  rewrite (file_path_unfold _ W') by (unfold valid in *; rewrite app_length; simpl; lia).
  unfold file_path_F. rewrite list_lookup_middle by done. simpl. rewrite Hp. split.
  - intros ->. simpl. by apply Hold.
  - intros Hne. destruct (String.eqb_spec (s_path y) ""); done.
Qed.

(** ** Sections *)

Definition child_section (self : nat) (path : string) (fs : list factory) : section :=
  set_factories (new_section (Some self) path) fs.

(** The state in which a new section below [self] is evaluated. *)
Definition child_state (self : nat) (path : string) (fs : list factory) (s : st) : st :=
  St (st_heap s ++ [child_section self path fs]) (st_cache s).

Definition finish_body (o : option content) (y : section) : section :=
  match o with Some c => set_body y c | None => y end.

Lemma use_plugins self path (fs : list factory) h c : ∀ fs0,
  mfold (λ _ f, mupd (length h) (use_plugin f)) tt fs (St (h ++ [child_section self path fs0]) c) =
  (St (h ++ [child_section self path (fs0 ++ fs)]) c, Ok tt).
Proof.
  induction fs as [|f fs IH]; intros fs0; simpl; [by rewrite (right_id_L [] (++))|].
  erewrite mbind_eq. 2: { unfold mupd, mmod. reflexivity. }
  simpl. assert (upd (h ++ [child_section self path fs0]) (length h) (use_plugin f) = h ++ [child_section self path (fs0 ++ [f])]) as ->.
  { unfold upd. rewrite list_lookup_middle by done. rewrite insert_app_r_alt by done.
    by rewrite Nat.sub_diag. }
  rewrite IH. by rewrite <- (assoc_L (++)).
Qed.

Lemma child_wf self path fs h : wf h → valid h self → wf (h ++ [child_section self path fs]).
Proof.
  intros Hw Hv. assert (h ++ [child_section self path fs] =
    upd (h ++ [new_section (Some self) path]) (length h) (λ y, set_factories y fs)) as ->.
  { unfold upd. rewrite list_lookup_middle by done. rewrite insert_app_r_alt by done. by rewrite Nat.sub_diag. }
  apply upd_wf; [done|]. by apply alloc_wf.
Qed.

Lemma evaluate_section_start rec self path nd fs s (k : nat → unit → M nat) :
  mbind (alloc (Some self) path) (λ i, mbind (evaluate_section rec i nd fs) (k i)) s =
  mbind (rec (length (st_heap s)) None nd)
    (λ r, mbind (match r with Some c => mupd (length (st_heap s)) (λ s, set_body s c) | None => mret tt end) (k (length (st_heap s))))
    (child_state self path fs s).
Proof.
  unfold alloc. erewrite mbind_eq by reflexivity. unfold evaluate_section.
  pose proof (use_plugins self path fs (st_heap s) (st_cache s) []) as H. simpl in H.
  change (child_section self path []) with (new_section (Some self) path) in H.
  unfold mbind at 1 2. rewrite H. simpl. fold (child_state self path fs s). unfold mbind.
  destruct (rec _ _ _ _) as [s2 [r|e| |]]; done.
Qed.

(** Evaluating a new section below [self], to completion. *)
Lemma evaluate_node_ok E n self nd fs s s' i : evaluate_node (eval E n) self nd fs s = (s', Ok i) →
  ∃ s2 r, eval E n i None nd (child_state self "" fs s) = (s2, Ok r) ∧ i = length (st_heap s) ∧
    s' = upd_st i (finish_body r) s2.
Proof.
  intros H. unfold evaluate_node in H. rewrite (evaluate_section_start _ _ _ _ _ _ (λ i _, mret i)) in H.
  apply mbind_ok in H as (s2 & r & He & H). apply mbind_ok in H as (s3 & u & H3 & [= <- <-]).
  exists s2, r. split; [done|]. split; [done|]. destruct r as [c|]; simpl in *.
  - by injection H3 as <-.
  - injection H3 as <- _. unfold upd_st, finish_body.
    assert (∀ h i, upd h i (λ y, y) = h) as Hid.
    { intros h i. unfold upd. destruct (h !! i) eqn:Hi; [|done]. by apply list_insert_id. }
    destruct s2 as [h2 c2]. simpl. by rewrite Hid.
Qed.

Lemma parse_step_state path mt parsed s s' r : parse_step path mt parsed s = (s', r) → s' = s.
Proof. unfold parse_step. by intros [= <- _]. Qed.

Lemma upd_id h i : upd h i (λ y, y) = h.
Proof. unfold upd. destruct (h !! i) eqn:Hi; [|done]. by apply list_insert_id. Qed.

Lemma evaluate_file_ok E n self path fs s s' i : evaluate_file E (eval E n) (Some self) path fs s = (s', Ok i) →
  ∃ mt parsed nd s2 r, e_fs E path = Some (mt, parsed) ∧ parse_step path mt parsed s = (s, Ok nd) ∧
    eval E n i None nd (child_state self path fs s) = (s2, Ok r) ∧ i = length (st_heap s) ∧
    s' = St (upd (st_heap s2) i (finish_body r)) (assoc_set path (nd, mt) (st_cache s2)).
Proof.
  intros H. unfold evaluate_file in H. destruct (e_fs E path) as [[mt parsed]|] eqn:Hfs; [|done].
  apply mbind_ok in H as (s1 & nd & Hp & H). pose proof (parse_step_state _ _ _ _ _ _ Hp) as ->.
  rewrite (evaluate_section_start _ _ _ _ _ _ (λ i _ s, (St (st_heap s) (assoc_set path (nd, mt) (st_cache s)), Ok i))) in H.
  apply mbind_ok in H as (s2 & r & He & H). apply mbind_ok in H as (s3 & u & H3 & [= <- <-]).
  exists mt, parsed, nd, s2, r. split; [done|]. split; [done|]. split; [done|]. split; [done|].
  destruct r as [c|]; simpl in *.
  - by injection H3 as <-.
  - injection H3 as <- _. unfold finish_body. by rewrite upd_id.
Qed.

(** [\section]. *)
Lemma runs_section E self s nd s' rets cs x : st_heap s !! self = Some x → wf (st_heap s) →
  runs E self s m_section [ANode nd] s' rets → returns rets cs →
  cs = [] ∧ ∃ n s2 r, let c := length (st_heap s) in
    eval E n c None nd (child_state self "" (s_factories x) s) = (s2, Ok r) ∧
    s' = attach_st self c (upd_st c (λ y, set_loc y (s_invloc x)) (upd_st c (finish_body r) s2)).
Proof.
  intros Hx Hw [n Hn] Hr. simpl in Hn. unfold getself in Hn. simpl in Hn.
  erewrite mbind_eq in Hn by reflexivity. rewrite Hx in Hn. simpl in Hn.
  apply mbind_ok in Hn as (s1 & o & Hcatch & Hn). apply mbind_ok in Hn as (s3 & u & Hatt & Hn).
  unfold mcatch in Hcatch. destruct (evaluate_node (eval E n) self nd (s_factories x) s) as [s1' [i|e| |]] eqn:He; try done;
    injection Hcatch as <- <-.
  2: { simpl in Hn. injection Hn as <- <-. inversion Hr. }
  apply evaluate_node_ok in He as (s2 & r & He & -> & ->). simpl in Hn. injection Hn as <- <-.
  assert (cs = []) as -> by by inversion Hr. split; [done|]. exists n, s2, r. split; [done|].
  simpl in Hatt. erewrite mbind_eq in Hatt.
  2: { erewrite mbind_eq by reflexivity.
       assert (st_heap (upd_st (length (st_heap s)) (finish_body r) s2) !! self = Some x) as ->.
       { simpl. pose proof (lookup_lt_Some _ _ _ Hx). rewrite upd_lookup_ne by lia.
         pose proof (eval_frame E n (length (st_heap s)) None nd (child_state self "" (s_factories x) s)) as F.
         rewrite He in F. simpl in F.
         rewrite (ff_others _ _ _ (F (child_wf _ _ _ _ Hw H) ltac:(unfold valid; simpl; rewrite app_length; simpl; lia)));
           [|simpl; rewrite app_length; simpl; lia|lia].
         simpl. by rewrite lookup_app_l. }
       reflexivity. }
  unfold attach_child, mupd, mmod in Hatt. by injection Hatt as <- _.
Qed.

(** [\include-section]. *)
Lemma runs_include E self s p s' rets cs f : file_path (st_heap s) self = Some f →
  runs E self s m_include [AStr p] s' rets → returns rets cs →
  cs = [] ∧ ∃ n mt parsed nd s2 r, let c := length (st_heap s) in let path := path_join (path_dir f) p in
    e_fs E path = Some (mt, parsed) ∧ parse_step path mt parsed s = (s, Ok nd) ∧
    eval E n c None nd (child_state self path [FBase] s) = (s2, Ok r) ∧
    s' = attach_st self c (St (upd (st_heap s2) c (finish_body r)) (assoc_set path (nd, mt) (st_cache s2))).
Proof.
  intros Hf [n Hn] Hr. simpl in Hn. unfold getpath in Hn. simpl in Hn.
  erewrite mbind_eq in Hn by reflexivity. rewrite Hf in Hn. simpl in Hn.
  apply mbind_ok in Hn as (s1 & o & Hcatch & Hn). apply mbind_ok in Hn as (s3 & u & Hatt & Hn).
  unfold mcatch in Hcatch.
  destruct (evaluate_file E (eval E n) (Some self) (path_join (path_dir f) p) [FBase] s) as [s1' [i|e| |]] eqn:He; try done;
    injection Hcatch as <- <-.
  2: { simpl in Hn. injection Hn as <- <-. inversion Hr. }
  apply evaluate_file_ok in He as (mt & parsed & nd & s2 & r & Hfs & Hp & He & -> & ->). simpl in Hn. injection Hn as <- <-.
  assert (cs = []) as -> by by inversion Hr. split; [done|]. exists n, mt, parsed, nd, s2, r. split_and!; try done.
  simpl in Hatt. unfold attach_child, mupd, mmod, mbind, mret in Hatt. simpl in Hatt. by injection Hatt as <- _.
Qed.

Lemma include_missing E self s p f n : file_path (st_heap s) self = Some f → e_fs E (path_join (path_dir f) p) = None →
  run_prog E (eval E n) self (m_body m_include self [AStr p]) s = (s, Ok [RErr (Some (EStat (path_join (path_dir f) p)))]).
Proof.
  intros Hf Hfs. simpl. unfold getpath. simpl. erewrite mbind_eq by reflexivity. rewrite Hf. simpl.
  unfold mbind at 1, mcatch, evaluate_file. rewrite Hfs. simpl. done.
Qed.

(** Resolution of an include path. *)
Lemma include_path f p dir file d d' : ssplit slash f = dir ++ [file] →
  walks (has_prefix "/" f) [] dir d → walks (has_prefix "/" f) d (ssplit slash p) d' →
  path_join (path_dir f) p = shown (has_prefix "/" f) d'.
Proof.
  intros Hs W W'. rewrite (path_dir_spec f dir file _ d Hs eq_refl W). apply path_join_spec; [|done].
  destruct (walks_exists (has_prefix "/" f) dir [] (place_nil _)) as (d0 & W0 & P).
  { pose proof (ssplit_forall_no_char slash f) as Ha. rewrite Hs in Ha. by apply Forall_app in Ha as [? _]. }
  by rewrite (walks_fun _ _ _ _ W _ W0).
Qed.

(** ** Invocations with one argument *)

Section one.
  Context (E : env) (self : nat).
  Notation body := (runs E self).

  Lemma yields_invoke_inv s fn args l s' cs x m : yields E self body s (NInvoke fn args l) s' cs →
    st_heap s !! self = Some x → dispatches E (method_name fn) (s_factories x) m →
    accepts m (length args) ∧ ∃ s1 argv rets, yields_args E self body (touch self l s) m 0 args s1 argv ∧
      ACon None ∉ argv ∧ body s1 m argv s' rets ∧ returns rets cs.
  Proof.
    intros Y Hx Hd. inversion Y as [| | | |? ? ? ? x0 m0 s1 argv ? rets ? Hx0 Hd0 Ha HY Hz Hb Hr]; subst.
    assert (x0 = x) as -> by congruence. apply dispatches_find in Hd, Hd0. assert (m0 = m) as -> by congruence.
    eauto 10.
  Qed.

  Lemma yields_args_one s m ty nd s1 argv : yields_args E self body s m 0 [nd] s1 argv → param m 0 ty →
    ∃ v, argv = [v] ∧ yields_arg E self body s ty nd s1 v.
  Proof.
    intros Y P. inversion Y as [|? ? ? ty0 ? ? s1' v ? vs P0 Ya Yr]; subst. pose proof (param_fun _ _ _ _ P P0) as <-.
    inversion Yr; subst. eauto.
  Qed.
End one.

Lemma yields_valid E self s nd s' cs : yields E self (runs E self) s nd s' cs → wf (st_heap s) → valid (st_heap s) self →
  frame_facts self (st_heap s) (st_heap s').
Proof.
  intros Y Hw Hv. destruct (proj1 (yields_complete E self) _ _ _ _ Y Hw Hv) as [n Hn].
  pose proof (eval_frame E n self None nd s Hw Hv) as F. by rewrite Hn in F.
Qed.

Lemma touch_frame self l s : frame self s (touch self l s).
Proof. apply frame_upd; [|done|auto]. intros n x. split; simpl; auto. by exists []; rewrite (right_id_L [] (++)). Qed.

(** ** Arguments of particular types *)

Lemma args_str_rest E self s m i args s1 argv : yields_args E self (runs E self) s m i args s1 argv →
  length (m_in m) ≤ i → m_variadic m = Some TStr → ∃ ss, argv = map AStr ss.
Proof.
  induction 1 as [|s m i ty nd args s1 v s2 vs P Y HY IH]; intros Hi Hm; [by exists []|].
  destruct IH as (ss & ->); [lia|done|].
  assert (ty = TStr) as -> by (eapply param_fun; [exact P|]; right; done). inversion Y; subst. by eexists (_ :: _).
Qed.
Lemma args_con_rest E self s m i args s1 argv : yields_args E self (runs E self) s m i args s1 argv →
  length (m_in m) ≤ i → m_variadic m = Some TCon → ACon None ∉ argv → ∃ cs, argv = map (λ c, ACon (Some c)) cs.
Proof.
  induction 1 as [|s m i ty nd args s1 v s2 vs P Y HY IH]; intros Hi Hm Hz; [by exists []|].
  apply not_elem_of_cons in Hz as [Hv Hz]. destruct IH as (ss & ->); [lia|done|done|].
  assert (ty = TCon) as -> by (eapply param_fun; [exact P|]; right; done). inversion Y as [|? ? ? cs Y'|]; subst.
  destruct (joined cs) as [c|]; [|done]. by exists (c :: ss).
Qed.

Lemma str_args_map ss : str_args (map AStr ss) = Some ss.
Proof. induction ss as [|t ss IH]; simpl; [done|]. by rewrite IH. Qed.
Lemma con_args_map cs : con_args (map (λ c, ACon (Some c)) cs) = Some cs.
Proof. induction cs as [|c cs IH]; simpl; [done|]. by rewrite IH. Qed.

Lemma title_args E self s nd args s1 argv : yields_args E self (runs E self) s m_title 0 (nd :: args) s1 argv →
  ACon None ∉ argv → ∃ t tags, argv = ACon (Some t) :: map AStr tags.
Proof.
  intros Y Hz. inversion Y as [|? ? ? ty ? ? s0 v ? vs P Ya Yr]; subst. apply not_elem_of_cons in Hz as [Hv Hz].
  apply args_str_rest in Yr as (ss & ->); [|simpl; lia|done].
  assert (ty = TCon) as -> by (eapply param_fun; [exact P|]; by left). inversion Ya as [|? ? ? cs Y'|]; subst.
  destruct (joined cs) as [c|]; [|done]. eauto.
Qed.

(** Evaluating arguments happens within a frame. *)
Lemma yields_args_frame E self s m i args s1 argv : yields_args E self (runs E self) s m i args s1 argv →
  wf (st_heap s) → valid (st_heap s) self →
  ∃ n, mmap (λ p, convert E (eval E n) self (fst p) (snd p)) (types_from m i args) s = (s1, Ok argv).
Proof.
  intros Y Hw Hv. exact (proj2 (proj2 (proj2 (proj2 (yields_complete E self)))) _ _ _ _ _ _ Y Hw Hv).
Qed.
Lemma yields_args_resp E R self s m i args s1 argv : eval_rel E R → yields_args E self (runs E self) s m i args s1 argv →
  wf (st_heap s) → valid (st_heap s) self → R self s s1.
Proof.
  intros HE Y Hw Hv. destruct (yields_args_frame _ _ _ _ _ _ _ _ Y Hw Hv) as [n Hn].
  assert (∀ l, resp (R self) (mmap (λ p, convert E (eval E n) self (fst p) (snd p)) l)) as H.
  {
    pose proof (eval_resp E R HE n self) as He.
    assert (∀ p, resp (R self) (convert E (eval E n) self (fst p) (snd p))) as Hc.
    { intros [ty nd] s0. simpl. destruct ty; simpl; unfold mbind, mlift, mheap, mret, mfail; try apply HE.
      - pose proof (He None nd s0) as H0. destruct (eval E n self None nd s0) as [s2 [o|e| |]]; simpl in *; try done.
        destruct o as [c|]; simpl; [|done]. by destruct (str E (st_heap s2) c).
      - pose proof (He None nd s0) as H0. by destruct (eval E n self None nd s0) as [s2 [o|e| |]]. }
    induction l as [|p l IH]; intros s0; simpl; [apply HE|]. unfold mbind at 1. pose proof (Hc p s0) as H0.
    destruct (convert E (eval E n) self (fst p) (snd p) s0) as [s2 [o|e| |]]; simpl in *; try done.
    unfold mbind. pose proof (IH s2) as H2.
    destruct (mmap _ l s2) as [s3 [os|e| |]]; simpl in *; eapply HE; done. }
  specialize (H (types_from m i args) s). by rewrite Hn in H.
Qed.
