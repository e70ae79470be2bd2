(** Paths: what the lexical functions of GoBase.v (path/filepath) compute. *)
From Coq Require Import Ascii String.
From stdpp Require Import base tactics strings list.
From Verif Require Import GoBase StrProofs.
Local Open Scope string_scope.
Local Open Scope list_scope.

(** Following the components of a path from a directory, itself given by
    components below the root (or, for relative paths, below the working
    directory, possibly starting with ".." components). *)
Inductive walks (rooted : bool) : list string → list string → list string → Prop :=
| walks_end d : walks rooted d [] d
| walks_stay d c r d' : c = "" ∨ c = "." → walks rooted d r d' → walks rooted d (c :: r) d'
| walks_down d c r d' : c ≠ "" → c ≠ "." → c ≠ ".." → walks rooted (d ++ [c]) r d' → walks rooted d (c :: r) d'
| walks_up d x r d' : x ≠ ".." → walks rooted d r d' → walks rooted (d ++ [x]) (".." :: r) d'
| walks_root r d' : rooted = true → walks rooted [] r d' → walks rooted [] (".." :: r) d'
| walks_out d r d' : rooted = false → Forall (λ c, c = "..") d → walks rooted (d ++ [".."]) r d' →
    walks rooted d (".." :: r) d'.

(** A place shown as a path. *)
Definition shown (rooted : bool) (d : list string) : string :=
  if rooted then "/" +:+ sjoin "/" d else match d with [] => "." | _ => sjoin "/" d end.

(** Places reached from the start. *)
Definition place (rooted : bool) (d : list string) : Prop :=
  ∃ ups names, d = ups ++ names ∧ Forall (λ c, c = "..") ups ∧ (rooted = true → ups = []) ∧
    Forall (λ c, c ≠ "" ∧ c ≠ "." ∧ c ≠ ".." ∧ no_char slash c = true) names.

Lemma place_nil rooted : place rooted [].
Proof. by exists [], []. Qed.

Lemma place_down rooted d c : place rooted d → c ≠ "" → c ≠ "." → c ≠ ".." → no_char slash c = true → place rooted (d ++ [c]).
Proof.
  intros (u & n & -> & Hu & Hr & Hn) ????. exists u, (n ++ [c]). rewrite (assoc_L (++)). split_and!; try done.
  apply Forall_app. split; [done|]. by constructor.
Qed.

Lemma place_last rooted d : place rooted d → d = [] ∨ (∃ d' x, d = d' ++ [x] ∧ x ≠ ".." ∧ place rooted d') ∨
  (rooted = false ∧ d ≠ [] ∧ Forall (λ c, c = "..") d).
Proof.
  intros (u & n & -> & Hu & Hr & Hn). destruct n as [|x n _] using rev_ind.
  - rewrite (right_id_L [] (++)). destruct u as [|y u]; [by left|]. right. right.
    destruct rooted; [by specialize (Hr eq_refl)|done].
  - right. left. apply Forall_app in Hn as [Hn Hx]. apply Forall_inv in Hx as (_ & _ & Hx & _).
    exists (u ++ n), x. rewrite (assoc_L (++)). split_and!; [done..|]. by exists u, n.
Qed.

(** Every walk has exactly one end, a place. *)
Lemma walks_exists rooted comps : ∀ d, place rooted d → Forall (λ c, no_char slash c = true) comps →
  ∃ d', walks rooted d comps d' ∧ place rooted d'.
Proof.
  induction comps as [|c comps IH]; intros d Hd Hc; [exists d; split; [constructor|done]|].
  apply Forall_cons in Hc as [Hc Hcs].
  destruct (decide (c = "")) as [->|H1]; [destruct (IH d) as (d' & ? & ?); [done..|]; exists d'; split; [apply walks_stay; [by left|done]|done]|].
  destruct (decide (c = ".")) as [->|H2]; [destruct (IH d) as (d' & ? & ?); [done..|]; exists d'; split; [apply walks_stay; [by right|done]|done]|].
  destruct (decide (c = "..")) as [->|H3].
  - destruct (place_last _ _ Hd) as [->|[(d0 & x & -> & Hx & H0)|(-> & Hne & Hall)]].
    + destruct rooted eqn:R.
      * destruct (IH [] (place_nil _)) as (d' & ? & ?); [done|]. exists d'. split; [by apply walks_root|done].
      * destruct (IH [".."]) as (d' & ? & ?); [|done|].
        { exists [".."], []. split_and!; try done. by constructor. }
        exists d'. split; [by apply walks_out|done].
    + destruct (IH d0) as (d' & ? & ?); [done..|]. exists d'. split; [by apply walks_up|done].
    + destruct (IH (d ++ [".."])) as (d' & ? & ?); [|done|].
      { exists (d ++ [".."]), []. rewrite (right_id_L [] (++)). split_and!; try done.
        apply Forall_app; split; [done|by constructor]. }
      exists d'. split; [by apply walks_out|done].
  - destruct (IH (d ++ [c])) as (d' & ? & ?); [by apply place_down|done|]. exists d'. split; [by apply walks_down|done].
Qed.

Lemma clean_go_walks rooted comps : ∀ d, Forall (λ c, no_char slash c = true) comps → place rooted d →
  walks rooted d comps (rev (clean_go rooted comps (rev d))) ∧
  place rooted (rev (clean_go rooted comps (rev d))).
Proof.
  induction comps as [|c comps IH]; intros d Hc Hd; simpl; [rewrite rev_involutive; split; [constructor|done]|].
  apply Forall_cons in Hc as [Hc Hcs].
  destruct (String.eqb_spec c "") as [->|H1].
  { destruct (IH d) as [IH1 IH2]; [done..|]. split; [|done]. apply walks_stay; [by left|done]. }
  destruct (String.eqb_spec c ".") as [->|H2].
  { destruct (IH d) as [IH1 IH2]; [done..|]. split; [|done]. apply walks_stay; [by right|done]. }
  destruct (String.eqb_spec c "..") as [->|H3].
  - destruct (place_last _ _ Hd) as [->|[(d0 & x & -> & Hx & H0)|(-> & Hne & Hall)]]; simpl.
    + destruct rooted eqn:R.
      * destruct (IH [] Hcs (place_nil _)) as [IH1 IH2]. split; [by apply walks_root|done].
      * destruct (IH [".."] Hcs) as [IH1 IH2].
        { exists [".."], []. split_and!; try done. by constructor. }
        split; [by apply walks_out|done].
    + rewrite rev_app_distr. simpl. destruct (String.eqb_spec x "..") as [->|_]; [done|].
      destruct (IH d0 Hcs H0) as [IH1 IH2]. split; [by apply walks_up|done].
    + destruct (IH (d ++ [".."]) Hcs) as [IH1 IH2].
      { exists (d ++ [".."]), []. rewrite (right_id_L [] (++)). split_and!; try done.
        apply Forall_app; split; [done|by constructor]. }
      rewrite rev_app_distr in IH1, IH2. simpl in IH1, IH2.
      destruct d as [|y d _] using rev_ind; [done|]. rewrite rev_app_distr in *. simpl in *.
      apply Forall_app in Hall as [Ha Hy]. apply Forall_inv in Hy as ->. simpl.
      split; [|done]. apply walks_out; [done| |done]. apply Forall_app; split; [done|by constructor].
  - destruct (IH (d ++ [c]) Hcs) as [IH1 IH2]; [by apply place_down|].
    rewrite rev_app_distr in IH1, IH2. split; [by apply walks_down|done].
Qed.

Lemma walks_fun rooted d comps d1 : walks rooted d comps d1 → ∀ d2, walks rooted d comps d2 → d1 = d2.
Proof.
  induction 1 as [d|d c r d' Hc H IH|d c r d' H1 H2 H3 H IH|d x r d' Hx H IH|r d' Hr H IH|d r d' Hr Hd H IH];
    intros d2 W.
  - by inversion W.
  - inversion W; subst; try (by apply IH); naive_solver.
  - inversion W; subst; try (by apply IH); naive_solver.
  - inversion W as [|? ? ? ? Hc|? ? ? ? ? ? Hne|d0 x0 ? ? ? HW Heq|? ? ? ? Heq|? ? ? ? Hall]; subst; try naive_solver.
    + apply app_inj_tail in Heq as [-> ->]. by apply IH.
    + by destruct d.
    + apply Forall_app in Hall as [_ Hall]. by apply Forall_inv in Hall.
  - inversion W as [|? ? ? ? Hc|? ? ? ? ? ? Hne|d0 x0 ? ? ? HW Heq|? ? ? ? Heq|? ? ? ? Hall]; subst; try naive_solver.
    by destruct d0.
  - inversion W as [|? ? ? ? Hc|? ? ? ? ? ? Hne|d0 x0 ? ? ? HW Heq|? ? ? ? Heq|? ? ? ? Hall]; subst; try naive_solver.
    apply Forall_app in Hd as [_ Hd]. by apply Forall_inv in Hd.
Qed.

Lemma walks_app rooted d a d1 b d2 : walks rooted d a d1 → walks rooted d1 b d2 → walks rooted d (a ++ b) d2.
Proof. induction 1; intros; simpl; eauto using walks. Qed.

Lemma has_prefix_slash p : has_prefix "/" p = true ↔ ∃ r, p = String slash r.
Proof. rewrite has_prefix_spec. done. Qed.

Lemma walks_empty rooted d d' : walks rooted d [""] d' → d' = d.
Proof.
  intros W. eapply walks_fun; [exact W|]. apply walks_stay; [by left|constructor].
Qed.

(** [filepath.Clean]. *)
Lemma path_clean_spec p rooted d : has_prefix "/" p = rooted → walks rooted [] (ssplit slash p) d →
  path_clean p = shown rooted d.
Proof.
  intros Hr W. unfold path_clean. destruct p as [|c p].
  { simpl in *. subst. apply walks_empty in W. by subst d. }
  rewrite Hr. pose proof (clean_go_walks rooted (ssplit slash (String c p)) [] (ssplit_forall_no_char _ _) (place_nil _)) as [W' P].
  change (rev []) with (@nil string) in *. rewrite <- (walks_fun _ _ _ _ W _ W') in *. unfold shown. destruct rooted; [done|].
  destruct d as [|x d]; [done|]. destruct (String.eqb_spec (sjoin "/" (x :: d)) "") as [He|]; [|done].
  exfalso. destruct P as (u & n & Heq & Hu & _ & Hn). assert (x ≠ "") as Hx.
  { destruct u as [|y u]; simpl in Heq.
    - subst n. by apply Forall_inv in Hn as (? & _).
    - injection Heq as -> _. apply Forall_inv in Hu as ->. done. }
  destruct d as [|y d]; [done|]. rewrite sjoin_cons in He. by apply sapp_eq_nil in He as [? _].
Qed.

(** A place shown as a path leads back to the place. *)
Lemma ssplit_place rooted d : place rooted d → d ≠ [] → ssplit slash (sjoin "/" d) = d.
Proof.
  intros (u & n & -> & Hu & _ & Hn) Hd. apply (ssplit_sjoin slash); [done|]. apply Forall_app. split.
  - eapply Forall_impl; [exact Hu|]. by intros ? ->.
  - eapply Forall_impl; [exact Hn|]. by intros ? (_ & _ & _ & ?).
Qed.

Lemma walks_ups e ups : Forall (λ c, c = "..") e → Forall (λ c, c = "..") ups → walks false e ups (e ++ ups).
Proof.
  revert e. induction ups as [|c ups IH]; intros e He Hu; [rewrite (right_id_L [] (++)); constructor|].
  apply Forall_cons in Hu as [-> Hu]. apply walks_out; [done..|]. change (".." :: ups) with ([".."] ++ ups). rewrite (assoc_L (++)). apply IH; [|done].
  apply Forall_app; split; [done|by constructor].
Qed.
Lemma walks_names rooted e names : Forall (λ c, c ≠ "" ∧ c ≠ "." ∧ c ≠ ".." ∧ no_char slash c = true) names →
  walks rooted e names (e ++ names).
Proof.
  revert e. induction names as [|c names IH]; intros e Hu; [rewrite (right_id_L [] (++)); constructor|].
  apply Forall_cons in Hu as [(? & ? & ? & _) Hu]. apply walks_down; [done..|]. change (c :: names) with ([c] ++ names). rewrite (assoc_L (++)). by apply IH.
Qed.
Lemma walks_to_place rooted d : place rooted d → walks rooted [] d d.
Proof.
  intros (u & n & -> & Hu & Hr & Hn). eapply walks_app; [|by apply walks_names].
  destruct rooted; [rewrite (Hr eq_refl); constructor|by apply (walks_ups [])].
Qed.

Lemma ssplit_app sep a b : ssplit sep (a +:+ String sep b) = ssplit sep a ++ ssplit sep b.
Proof.
  induction a as [|c a IH].
  - rewrite sapp_nil_l. simpl. by rewrite Ascii.eqb_refl.
  - rewrite sapp_cons. simpl. destruct (Ascii.eqb c sep); [by rewrite IH|].
    rewrite IH. pose proof (ssplit_not_nil sep a). by destruct (ssplit sep a).
Qed.

Lemma shown_prefix rooted d : place rooted d → has_prefix "/" (shown rooted d) = rooted.
Proof.
  intros P. destruct rooted; [by apply has_prefix_app|]. unfold shown. destruct d as [|x d]; [done|].
  destruct (has_prefix _ _) eqn:Hp; [|done]. exfalso. apply has_prefix_slash in Hp as [r Hr].
  pose proof (ssplit_place _ _ P ltac:(done)) as Hs. rewrite Hr in Hs. simpl in Hs. injection Hs as <- _.
  destruct P as (u & n & Heq & Hu & _ & Hn). destruct u as [|y u]; simpl in Heq.
  - subst n. by apply Forall_inv in Hn as (? & _).
  - injection Heq as <- _. by apply Forall_inv in Hu.
Qed.
Lemma shown_nonempty rooted d : place rooted d → shown rooted d ≠ "".
Proof.
  intros P He. destruct rooted; [done|]. unfold shown in He. destruct d as [|x d]; [done|].
  pose proof (ssplit_place _ _ P ltac:(done)) as Hs. rewrite He in Hs. simpl in Hs. injection Hs as <- <-.
  destruct P as (u & n & Heq & Hu & _ & Hn). destruct u as [|y u]; simpl in Heq.
  - subst n. by apply Forall_inv in Hn as (? & _).
  - injection Heq as <- _. by apply Forall_inv in Hu.
Qed.
Lemma walks_shown rooted d : place rooted d → walks rooted [] (ssplit slash (shown rooted d)) d.
Proof.
  intros P. pose proof (walks_to_place _ _ P) as W. unfold shown. destruct rooted.
  - change ("/" +:+ sjoin "/" d) with ("" +:+ String slash (sjoin "/" d)). rewrite ssplit_app.
    apply walks_stay; [by left|]. destruct d as [|x d]; [apply walks_stay; [by left|]; constructor|].
    by rewrite (ssplit_place _ _ P).
  - destruct d as [|x d]; [apply walks_stay; [by right|]; constructor|]. by rewrite (ssplit_place _ _ P).
Qed.

(** The directory part of a path: its components without the last. *)
Lemma path_dir_spec p dir file rooted d : ssplit slash p = dir ++ [file] → has_prefix "/" p = rooted →
  walks rooted [] dir d → path_dir p = shown rooted d.
Proof.
  intros Hs Hr W. unfold path_dir. rewrite Hs, rev_app_distr. simpl.
  assert (Forall (λ c, no_char slash c = true) dir) as Hnc.
  { pose proof (ssplit_forall_no_char slash p) as Ha. rewrite Hs in Ha. by apply Forall_app in Ha as [? _]. }
  destruct dir as [|x dir].
  - simpl. rewrite (walks_fun _ _ _ _ W [] (walks_end _ _)). subst. assert (has_prefix "/" p = false) as ->.
    { destruct (has_prefix "/" p) eqn:He; [|done]. apply has_prefix_slash in He as [r ->]. simpl in Hs.
      injection Hs as _ Hs. by apply ssplit_not_nil in Hs. }
    done.
  - destruct (rev (x :: dir)) as [|y r] eqn:Hrev.
    { apply (f_equal (@rev _)) in Hrev. by rewrite rev_involutive in Hrev. }
    rewrite <- Hrev, rev_involutive. apply path_clean_spec.
    + destruct x as [|c x].
      * assert (∃ t, p = String slash t) as [t ->].
        { rewrite <- (sjoin_ssplit slash p), Hs. destruct dir; simpl; eauto. }
        destruct dir; simpl; done.
      * assert (Ascii.eqb c slash = false) as Hc.
        { apply Forall_inv in Hnc. unfold no_char in Hnc. simpl in Hnc. destruct (Ascii.eqb c slash) eqn:He; [|done].
          rewrite ?He in Hnc. done. }
        assert (∃ t, p = String c t) as [t ->].
        { rewrite <- (sjoin_ssplit slash p), Hs. destruct dir; simpl; eauto. }
        rewrite <- Hr. destruct dir; simpl; done.
    + change "/" with (String slash "") at 2. rewrite ssplit_app. change (ssplit slash "") with [""].
      change "/" with (String slash "").
      rewrite ssplit_sjoin; [|done|done]. eapply walks_app; [exact W|]. apply walks_stay; [by left|constructor].
Qed.

(** [filepath.Join] of a cleaned directory and a path. *)
Lemma path_join_spec rooted d p d' : place rooted d → walks rooted d (ssplit slash p) d' →
  path_join (shown rooted d) p = shown rooted d'.
Proof.
  intros P W. unfold path_join. destruct (String.eqb_spec (shown rooted d) "") as [He|_]; [by apply shown_nonempty in He|].
  destruct (String.eqb_spec p "") as [->|Hp].
  - apply path_clean_spec; [by apply shown_prefix|]. assert (d' = d) as ->.
    { by apply walks_empty in W. }
    by apply walks_shown.
  - apply path_clean_spec.
    + rewrite <- (shown_prefix rooted d P) at 2. pose proof (shown_nonempty rooted d P).
      destruct (shown rooted d) as [|c t]; [done|]. by rewrite sapp_cons.
    + change ("/" +:+ p) with (String slash p). rewrite ssplit_app. eapply walks_app; [by apply walks_shown|done].
Qed.
