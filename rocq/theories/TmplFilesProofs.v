(** Proofs about TmplFiles.v. *)
From Coq Require Import Ascii String Lia ZArith.
From stdpp Require Import base tactics functions strings list.
From Verif Require Import GoBase StrProofs Ast Content Section Render Html TextRender Templates TemplatesProofs Tmpl TmplSrc TmplEsc TmplExec TmplParseProofs TmplWritten TmplReads TmplFiles.
Local Open Scope string_scope. Local Open Scope list_scope.

Lemma sforall_blanks s : sforall is_sp s = true ↔ blanks s.
Proof.
  unfold blanks. induction s as [|c s IH].
  - split; [|done]. intros _ c H. by apply elem_of_nil in H.
  - cbn [sforall list_ascii_of_string]. rewrite andb_true_iff, IH, <- blank_sp. split.
    + intros [H1 H2] x Hx. apply elem_of_cons in Hx as [->|Hx]; auto.
    + intros H. split; [apply H; left|intros x Hx; apply H; by right].
Qed.
Lemma empty_blank t : empty_tree t = true ↔ blank_body t.
Proof.
  unfold empty_tree, blank_body. rewrite forallb_forall. split.
  - intros H x Hx. apply elem_of_list_In, H in Hx. destruct x; try done. exists s. split; [done|]. by apply sforall_blanks.
  - intros H x Hx. apply elem_of_list_In, H in Hx as (s & -> & Hs). by apply sforall_blanks.
Qed.
Lemma empty_not t : empty_tree t = false ↔ ¬ blank_body t.
Proof. rewrite <- empty_blank. by destruct (empty_tree t). Qed.

Lemma bodies_app n l l' : bodies n (l ++ l') = bodies n l ++ bodies n l'.
Proof. apply omap_app. Qed.
Lemma bodies_one n d : bodies n [d] = if String.eqb d.1 n then [d.2] else [].
Proof. unfold bodies. simpl. by destruct (String.eqb d.1 n). Qed.
Lemma bodies_in n t l : t ∈ bodies n l ↔ (n, t) ∈ l.
Proof.
  unfold bodies. rewrite elem_of_list_omap. split.
  - intros ([m u] & H & E). simpl in E. destruct (String.eqb_spec m n) as [->|]; [|done]. by injection E as ->.
  - intros H. exists (n, t). split; [done|]. simpl. by rewrite String.eqb_refl.
Qed.
Lemma bodies_filter n m l : bodies n (List.filter (λ t : string * list node, negb (String.eqb t.1 m)) l) = if String.eqb m n then [] else bodies n l.
Proof.
  induction l as [|[k t] l IH]; [simpl; by destruct (String.eqb m n)|]. cbn [List.filter fst].
  destruct (String.eqb_spec k m) as [->|Hk]; cbn [negb].
  - rewrite IH. unfold bodies at 2. cbn [omap list_omap fst snd]. by destruct (String.eqb m n).
  - unfold bodies. cbn [omap list_omap fst snd]. unfold bodies in IH. rewrite IH. destruct (String.eqb_spec m n) as [->|]; [|done].
    destruct (String.eqb_spec k n); [by subst|done].
Qed.
Lemma find_bodies m l : match List.find (λ t : string * list node, String.eqb t.1 m) l with
  | None => bodies m l = [] | Some t => ∃ r, bodies m l = t.2 :: r end.
Proof.
  induction l as [|[k t] l IH]; [done|]. cbn [List.find fst]. unfold bodies. cbn [omap list_omap fst snd].
  destruct (String.eqb k m) eqn:E; [by eexists|]. exact IH.
Qed.

Lemma taken_nil t : ¬ taken [] t.
Proof. intros H. inversion H; by destruct a. Qed.
Lemma taken_unique bs t u : taken bs t → taken bs u → t = u.
Proof.
  intros H H'. destruct H as [a t z Ha Ht Hz|a t Ha].
  - inversion H' as [a' u' z' Ha' Hu Hz' E|a' u' Ha' E]; subst.
    + apply app_eq_inv in E as [(k & E1 & E2)|(k & E1 & E2)]; (destruct k as [|x k]; [by injection E2 as ->|]); exfalso.
      * injection E2 as -> E2. subst a'. apply Forall_app in Ha' as [_ Ha']. by apply Forall_cons in Ha' as [? _].
      * injection E2 as -> E2. subst a. apply Forall_app in Ha as [_ Ha]. by apply Forall_cons in Ha as [? _].
    + exfalso. rewrite E in Ha'. apply Forall_app in Ha' as [_ Ha']. by apply Forall_cons in Ha' as [? _].
  - inversion H' as [a' u' z' Ha' Hu Hz' E|a' u' Ha' E]; subst.
    + exfalso. rewrite <- E in Ha. apply Forall_app in Ha as [_ Ha]. by apply Forall_cons in Ha as [? _].
    + by apply app_inj_tail in E as [_ ->].
Qed.
Lemma taken_once bs t : taken bs t → ¬ twice bs.
Proof.
  intros H (a & u & b & v & c & -> & Hu & Hv). inversion H as [a' t' z' Ha Ht Hz E|a' t' Ha E]; subst.
  - apply app_eq_inv in E as [(k & E1 & E2)|(k & E1 & E2)].
    + destruct k as [|x k].
      * injection E2 as ? E2. subst. apply Forall_app in Hz as [_ Hz]. by apply Forall_cons in Hz as [? _].
      * injection E2 as -> E2. subst a'. apply Forall_app in Ha as [_ Ha]. by apply Forall_cons in Ha as [? _].
    + destruct k as [|x k].
      * injection E2 as ? E2. subst. apply Forall_app in Hz as [_ Hz]. by apply Forall_cons in Hz as [? _].
      * injection E2 as -> ->. apply Forall_app in Hz as [_ Hz]. apply Forall_cons in Hz as [? _]. done.
  - rewrite E in Ha. apply Forall_app in Ha as [_ Ha]. by apply Forall_cons in Ha as [? _].
Qed.

Lemma taken_blank_inv bs t : taken bs t → blank_body t → Forall blank_body bs.
Proof. intros H B. by destruct H. Qed.
Lemma taken_body_inv bs t : taken bs t → ¬ blank_body t → ∃ a z, bs = a ++ t :: z ∧ Forall blank_body a ∧ Forall blank_body z.
Proof.
  intros H B. destruct H as [a t z|a t H]; [by exists a, z|]. apply Forall_app in H as [_ H]. by apply Forall_cons in H as [? _].
Qed.

(** Adding the bodies of a text. *)
Definition right_set (l ts : list (string * list node)) : Prop :=
  ∀ n, (bodies n l = [] ∧ bodies n ts = []) ∨ ∃ t, bodies n ts = [t] ∧ taken (bodies n l) t.
Lemma add_tree_right l ts d : right_set l ts →
  match add_tree ts d with Some ts' => right_set (l ++ [d]) ts' | None => twice (bodies d.1 (l ++ [d])) end.
Proof.
  intros H. unfold add_tree. pose proof (find_bodies d.1 ts) as F. destruct (H d.1) as [[Hl Ht]|(t & Ht & Hl)].
  - destruct (List.find _ ts) as [x|]; [by destruct F as [r F]; rewrite F in Ht|]. intros n. rewrite !bodies_app, !bodies_one.
    destruct (String.eqb_spec d.1 n) as [<-|N]; [|rewrite !app_nil_r; apply H]. right. exists d.2. rewrite Ht, Hl. split; [done|].
    destruct (empty_tree d.2) eqn:E; [apply empty_blank in E; apply (taken_blank []); by constructor|apply empty_not in E; by apply (taken_body [] _ [])].
  - destruct (List.find _ ts) as [x|]; [|by rewrite F in Ht]. destruct F as [r F]. rewrite F in Ht. injection Ht as Hx ->. rewrite Hx in *. clear x Hx.
    destruct (empty_tree t) eqn:E; [|destruct (empty_tree d.2) eqn:E2].
    + intros n. rewrite !bodies_app, !bodies_one, bodies_filter. destruct (String.eqb_spec d.1 n) as [<-|N]; [|rewrite !app_nil_r; apply H].
      right. exists d.2. split; [done|]. apply empty_blank in E. pose proof (taken_blank_inv _ _ Hl E) as Ha.
      destruct (empty_tree d.2) eqn:E2; [apply empty_blank in E2; apply taken_blank; apply Forall_app; split; [done|by constructor]|].
      apply empty_not in E2. by apply taken_body.
    + intros n. rewrite !bodies_app, !bodies_one. destruct (String.eqb_spec d.1 n) as [<-|N]; [|rewrite app_nil_r; apply H].
      right. exists t. split; [exact F|]. apply empty_not in E. apply empty_blank in E2. destruct (taken_body_inv _ _ Hl E) as (a' & z' & -> & Ha & Hz).
      rewrite <- app_assoc. apply taken_body; [done|done|]. apply Forall_app. split; [done|by constructor].
    + apply empty_not in E, E2. destruct (taken_body_inv _ _ Hl E) as (a' & z' & E' & Ha & Hz).
      rewrite bodies_app, bodies_one, String.eqb_refl, E'. exists a', t, z', d.2, []. by rewrite <- app_assoc.
Qed.
Lemma twice_more bs cs : twice bs → twice (bs ++ cs).
Proof. intros (a & t & b & u & c & -> & Ht & Hu). exists a, t, b, u, (c ++ cs). split; [by rewrite <- !app_assoc; simpl; rewrite <- app_assoc|done]. Qed.
Lemma add_trees_none ds : fold_left (λ o d, ts ← o; add_tree ts d) ds None = None.
Proof. induction ds; done. Qed.
Lemma add_trees_right ds : ∀ l ts, right_set l ts →
  match fold_left (λ o d, ts ← o; add_tree ts d) ds (Some ts) with
  | Some ts' => right_set (l ++ ds) ts' | None => ∃ n, twice (bodies n (l ++ ds)) end.
Proof.
  induction ds as [|d ds IH]; intros l ts H; [by rewrite app_nil_r|]. cbn [fold_left base.mbind option_bind].
  pose proof (add_tree_right _ _ d H) as Ha. destruct (add_tree ts d) as [ts'|].
  - specialize (IH _ _ Ha). by rewrite <- app_assoc in IH.
  - rewrite add_trees_none. exists d.1. rewrite (cons_middle d l ds), app_assoc, bodies_app. by apply twice_more.
Qed.

Lemma right_nodup l ts : right_set l ts → NoDup ts.*1.
Proof.
  intros H. apply NoDup_alt. intros i j n Hi Hj. rewrite list_lookup_fmap in Hi, Hj.
  destruct (ts !! i) as [[n1 t]|] eqn:Ei; [|done]. destruct (ts !! j) as [[n2 u]|] eqn:Ej; [|done]. simpl in Hi, Hj. injection Hi as ->. injection Hj as ->.
  assert (∀ i j t u, i < j → ts !! i = Some (n, t) → ts !! j = Some (n, u) → False) as K.
  { clear -H. intros i j t u L Ei Ej. apply elem_of_list_split_length in Ei as (a & z & -> & Ha).
    rewrite lookup_app_r in Ej by lia. destruct (j - length a) as [|k] eqn:D; [lia|]. cbn [lookup list_lookup] in Ej.
    apply elem_of_list_lookup_2, bodies_in in Ej. specialize (H n). rewrite bodies_app in H. change ((n, t) :: z) with ([(n, t)] ++ z) in H.
    rewrite bodies_app, bodies_one, String.eqb_refl in H. destruct H as [[_ H]|(v & H & _)].
    - by destruct (bodies n a).
    - destruct (bodies n a) as [|b l']; simpl in H.
      + injection H as _ H. rewrite H in Ej. by apply elem_of_nil in Ej.
      + injection H as _ H. by destruct l'. }
  destruct (Nat.lt_trichotomy i j) as [L|[->|L]]; [by destruct (K i j t u L)|done|by destruct (K j i u t L)].
Qed.

Lemma parse_taken nm ns ds s : template_text ns ds s →
  (∀ ts, parse nm s = Some ts → NoDup ts.*1 ∧ ∀ n t, (n, t) ∈ ts ↔ taken (bodies n (ds ++ [(nm, ns)])) t) ∧
  (parse nm s = None ↔ ∃ n, twice (bodies n (ds ++ [(nm, ns)]))).
Proof.
  intros H. unfold parse. rewrite (template_reads nm _ _ _ H). cbn [base.mbind option_bind].
  pose proof (add_trees_right (ds ++ [(nm, ns)]) [] [] ltac:(by left)) as A. change ([] ++ ds ++ [(nm, ns)]) with (ds ++ [(nm, ns)]) in A.
  unfold base.mbind in A. destruct (fold_left _ _ _) as [ts|].
  - split; [|split; [done|]].
    + intros ? [= <-]. split; [by eapply right_nodup|]. intros n t. rewrite <- bodies_in. destruct (A n) as [[El Et]|(u & Et & Hu)].
      * rewrite El, Et, elem_of_nil. split; [done|]. intros X. by apply taken_nil in X.
      * rewrite Et, elem_of_list_singleton. split; [by intros ->|]. intros X. by eapply taken_unique.
    + intros [n Hn]. exfalso. destruct (A n) as [[El Et]|(u & Et & Hu)]; [|by apply taken_once in Hu].
      rewrite El in Hn. destruct Hn as (a & t & b & u & c & E & _). by destruct a.
  - by split.
Qed.

Lemma trim_without_end s : without_end s (trim_right nl s).
Proof.
  unfold without_end. induction s as [|c s IH].
  - exists "". simpl. split_and!; [done| |by intros [|? ?]]. intros c H. by apply elem_of_nil in H.
  - cbn [trim_right]. destruct IH as (z & E & Hz & Hu). destruct (Ascii.eqb_spec c nl) as [->|Hc]; [destruct (String.eqb_spec (trim_right nl s) "") as [E0|E0]|].
    + exists (String nl s). rewrite E0 in E. simpl in E. subst z. split_and!; [done| |by intros [|? ?]].
      intros x Hx. cbn [list_ascii_of_string] in Hx. apply elem_of_cons in Hx as [->|Hx]; [done|]. auto.
    + exists z. split_and!; [by rewrite sapp_cons, <- E|done|]. intros [|x v] Ev; [by injection Ev as Ev|]. rewrite sapp_cons in Ev. injection Ev as <- Ev. by eapply Hu.
    + exists z. split_and!; [by rewrite sapp_cons, <- E|done|]. intros [|x v] Ev; [|rewrite sapp_cons in Ev; injection Ev as <- Ev; by eapply Hu].
      injection Ev as -> _. done.
Qed.
Lemma without_end_trim u : ∀ s, without_end s u → trim_right nl s = u.
Proof.
  induction u as [|c u IH]; intros s (z & -> & Hz & Hu).
  - change ("" +:+ z) with z. induction z as [|c z IH]; [done|]. cbn [trim_right]. rewrite IH; [|intros x Hx; apply Hz; by right].
    assert (c = "010"%char) as -> by (apply Hz; left). done.
  - rewrite sapp_cons. cbn [trim_right]. rewrite (IH (u +:+ z)).
    + destruct (Ascii.eqb_spec c nl) as [->|]; [|done]. destruct (String.eqb_spec u "") as [->|]; [|done]. by destruct (Hu "").
    + exists z. split_and!; [done|done|]. intros v ->. by apply (Hu (String c v)).
Qed.
Lemma text_unique nm ns ds ns' ds' s : template_text ns ds s → template_text ns' ds' s → ds ++ [(nm, ns)] = ds' ++ [(nm, ns')].
Proof. intros H H'. apply (template_reads nm) in H. apply (template_reads nm) in H'. rewrite H in H'. by injection H'. Qed.

Lemma parse_file_gives name c u ns ds : without_end c u → template_text ns ds u → (∀ n, ¬ twice (bodies n (ds ++ [(name, ns)]))) →
  ∃ ts, parse_file name c = Some ts ∧ NoDup ts.*1 ∧ ∀ n t, (n, t) ∈ ts ↔ gives name c n t.
Proof.
  intros Hu Ht Hn. unfold parse_file. pose proof (without_end_trim _ _ Hu) as ->. destruct (parse_taken name _ _ _ Ht) as [H1 H2].
  destruct (parse name u) as [ts|] eqn:E.
  - exists ts. destruct (H1 ts eq_refl) as [N G]. split_and!; [done|done|]. intros n t. rewrite G. split.
    + intros K. by exists u, ns, ds.
    + intros (u' & ns' & ds' & Hu' & Ht' & K). apply without_end_trim in Hu. apply without_end_trim in Hu'. assert (u' = u) as -> by congruence.
      by rewrite (text_unique name _ _ _ _ _ Ht Ht').
  - destruct (proj1 H2 eq_refl) as [n X]. by destruct (Hn n).
Qed.
Lemma parse_file_twice name c u ns ds n : without_end c u → template_text ns ds u → twice (bodies n (ds ++ [(name, ns)])) → parse_file name c = None.
Proof.
  intros Hu Ht Hn. unfold parse_file. rewrite (without_end_trim _ _ Hu). apply (parse_taken name _ _ _ Ht). by exists n.
Qed.

Lemma stays_cons old t bs r : stays (Some (if empty_tree t then default t old else t)) bs r → stays old (t :: bs) r.
Proof.
  intros H. inversion H as [a u z Hu Hz|bs' Hb Ho|Ho|]; subst; try done.
  - by apply (stays_body old (t :: a)).
  - destruct (empty_tree t) eqn:E; [|apply empty_not in E; by apply (stays_body old [])]. apply empty_blank in E.
    destruct old as [o|]; simpl; [apply stays_old; [by constructor|done]|apply stays_first; [done|by constructor]].
Qed.
Lemma add_files_stays d : ∀ old, (∀ f, f ∈ d → proper f) →
  ∃ s, add_files parse_file empty_tree d old = (s, true) ∧ ∀ n, ∃ bs, given n d bs ∧ stays (old n) bs (s n).
Proof.
  induction d as [|f d IH]; intros old H.
  - exists old. split; [done|]. intros n. exists []. split; [constructor|]. destruct (old n) eqn:E; [by apply stays_old|by apply stays_none].
  - destruct (H f ltac:(left)) as (c & u & ns & ds & Hc & Hu & Ht & Hn). destruct (parse_file_gives _ _ _ _ _ Hu Ht Hn) as (ts & Hts & N & G).
    cbn [add_files]. rewrite Hc. cbn [base.mbind option_bind]. unfold add_text. rewrite Hts. cbn [base.mbind option_bind].
    destruct (IH (fold_left (associate empty_tree) ts old)) as (s & Hs & K); [intros g Hg; apply H; by right|].
    exists s. split; [done|]. intros n. destruct (K n) as (bs & Hg & Hst).
    destruct (bodies n ts) as [|t r] eqn:Eb.
    + exists bs. rewrite fold_other in Hst.
      * split; [|done]. apply given_none; [|done]. intros c' t Hc' Hg'. assert (c' = c) as -> by congruence.
        apply G, bodies_in in Hg'. rewrite Eb in Hg'. by apply elem_of_nil in Hg'.
      * intros ([m t] & -> & Hm)%elem_of_list_fmap. apply bodies_in in Hm. simpl in Eb. rewrite Eb in Hm. by apply elem_of_nil in Hm.
    + assert ((n, t) ∈ ts) as Hin by (apply bodies_in; rewrite Eb; left). exists (t :: bs). rewrite (fold_own _ _ _ _ t) in Hst by done.
      split; [|by apply stays_cons]. apply (given_body n f c); [done|by apply G|done].
Qed.

(** The bodies are the only ones. *)
Lemma gives_unique name c n t u : gives name c n t → gives name c n u → t = u.
Proof.
  intros (v & ns & ds & Hv & Ht & H) (v' & ns' & ds' & Hv' & Ht' & H'). apply without_end_trim in Hv, Hv'.
  assert (v' = v) as -> by congruence. rewrite (text_unique name _ _ _ _ _ Ht Ht') in H. by eapply taken_unique.
Qed.
Lemma given_unique n d bs bs' : given n d bs → given n d bs' → bs = bs'.
Proof.
  intros H. revert bs'. induction H as [|f c t d bs Hc Hg H IH|f d bs Hn H IH]; intros bs' H'; inversion H'; subst; try done.
  - assert (c0 = c) as -> by congruence. f_equal; [by eapply gives_unique|auto].
  - by exfalso; eapply H2.
  - by exfalso; eapply Hn.
  - auto.
Qed.
Lemma stays_unique old bs r r' : stays old bs r → stays old bs r' → r = r'.
Proof.
  assert (∀ a t z, ¬ blank_body t → ¬ Forall blank_body (a ++ t :: z)) as K.
  { intros a t z Ht H. apply Forall_app in H as [_ H]. by apply Forall_cons in H as [? _]. }
  intros H H'. inversion H as [a t z Ht Hz|? Hb Ho|Ho|t z Ho Hb]; inversion H' as [a' t' z' Ht' Hz'|? Hb' Ho'|Ho'|t' z' Ho' Hb']; subst; try done.
  all: try match goal with E : _ :: _ = _ :: _ |- _ => by injection E as -> end.
  all: try solve [exfalso; first [by eapply K|by destruct a|match goal with E : _ ++ _ :: _ = _ |- _ => rewrite <- E in *; by eapply K end
    |match goal with E : _ = _ ++ _ :: _ |- _ => rewrite E in *; by eapply K end|by destruct a']].
  match goal with E : _ ++ _ :: _ = _ ++ _ :: _ |- _ => apply app_eq_inv in E as [(k & E1 & E2)|(k & E1 & E2)] end; (destruct k as [|x k]; [by injection E2 as ->|]); exfalso.
  - injection E2 as -> E2. subst. by apply K in Hz.
  - injection E2 as -> E2. subst. by apply K in Hz'.
Qed.
