(** C36: the cache of parsed files. *)
From Coq Require Import Lia ZArith.
From stdpp Require Import base tactics relations functions list strings.
From Verif Require Import Cache CacheProofs.
Local Open Scope string_scope. Local Open Scope list_scope.

Section Props.
  Context {path : Type} `{EqDecision path} {content node : Type}.
  Variable parse : content → option node.

  (** Let modification times tell versions apart. Whatever the processor loaded
      before, whatever other loads run at the same time and however files change,
      a load that has not looked at its file in state [s0] only ever works with the
      tree of the version of that moment or of a later one. *)
  Theorem cache_fresh s0 s i p p' g (n : node) :
    reachable (path:=path) parse advancing s0 → s_loads s0 !! i = Some (PStat p) →
    rtc (step parse advancing) s0 s →
    (q ← s_loads s !! i; uses q) = Some (p', g, n) →
    p' = p ∧ ∃ k t c, length (s_hist s0 p) ≤ S k ∧ s_hist s p !! k = Some (Some (t, c)) ∧ parse c = Some n.
  Proof.
    intros Hr Hi Hs Hq. assert (tracked (length (s_hist s0 p)) i p s0) as HT.
    { split; [done|]. exists (PStat p). by split. }
    apply (tracked_steps parse advancing _ _ _ _ _ HT) in Hs as Ht. destruct Ht as [Hm (q & Eq & Hq')].
    rewrite Eq in Hq. simpl in Hq.
    assert (inv parse s) as HI. { eapply inv_reachable. unfold reachable in *. by etrans. }
    pose proof (inv_loads _ _ HI q ltac:(by eapply elem_of_list_lookup_2)) as Hok.
    assert (since (length (s_hist s0 p)) p q ∧ from parse (s_hist s p') g n ∧
      (p' = p ∧ length (s_hist s0 p) ≤ S g)) as (_ & (k & t & c & Hk & H) & -> & Hg).
    { destruct q; simpl in Hq; simplify_eq; simpl in *; naive_solver. }
    split; [done|]. exists k, t, c. split; [lia|done].
  Qed.

  (** So if the file does not change in the meantime the tree is the one of its
      content. *)
  Theorem cache_current s0 s i p p' g (n : node) :
    reachable (path:=path) parse advancing s0 → s_loads s0 !! i = Some (PStat p) →
    rtc (step parse advancing) s0 s → s_hist s p = s_hist s0 p →
    (q ← s_loads s !! i; uses q) = Some (p', g, n) →
    ∃ t c, current s p = Some (t, c) ∧ parse c = Some n.
  Proof.
    intros Hr Hi Hs Hh Hq. destruct (cache_fresh s0 s i p p' g n) as (_ & k & t & c & Hk & Hl & Hp); [done..|].
    exists t, c. split; [|done]. unfold current. rewrite last_lookup.
    pose proof (lookup_lt_Some _ _ _ Hl). rewrite Hh in *.
    by replace (pred (length (s_hist s0 p))) with k by lia; rewrite Hl.
  Qed.
End Props.
Print Assumptions cache_fresh.
Print Assumptions cache_current.

(** Executions by computation. *)
Local Ltac writes := let H := fresh in intros ? ? H; rewrite ?fn_lookup_insert in H; simpl (_ ++ _) in H;
  repeat match goal with
  | H : _ ∈ _ :: _ |- _ => apply elem_of_cons in H as [H|H]; [simplify_eq; lia|]
  | H : _ ∈ [] |- _ => by apply elem_of_nil in H end.
Local Tactic Notation "go" uconstr(t) :=
  eapply rtc_l; [eapply t; first [reflexivity|lia|done|intros ? ? H; exfalso; discriminate H|intros ? ? H; injection H as <- <-; lia|simpl; writes]|];
  unfold goto; cbn [s_hist s_cache s_loads]; simpl (_ ++ _); simpl (pred (length _)); simpl (<[_:=_]> (_ :: _)).

(** Two loads of one file with a change between them; the second parses again, a
    third one uses the cached tree. *)
Example ex_cache : ∃ s0 s,
  reachable (path:=nat) (@Some string) advancing s0 ∧ s_loads s0 !! 2 = Some (PStat 7) ∧
  s_cache s0 7 = Some ("b", 2%Z) ∧
  rtc (step (@Some string) advancing) s0 s ∧ s_hist s 7 = s_hist s0 7 ∧
  s_loads s = [PDone 7 0 "a"; PDone 7 1 "b"; PDone 7 1 "b"].
Proof.
  eexists _, _. split_and!.
  - unfold reachable, initial. go (s_write _ _ _ 7 (Some (1%Z, "a"))). go (s_begin _ _ _ 7).
    go (s_stat _ _ _ 0 7 1%Z "a"). go (s_miss _ _ _ 0 7 0 1%Z). go (s_read _ _ _ 0 7 0 1%Z 1%Z "a" "a").
    go (s_eval _ _ _ 0 7 0 1%Z "a"). go (s_store _ _ _ 0 7 0 1%Z "a").
    go (s_write _ _ _ 7 (Some (2%Z, "b"))). go (s_begin _ _ _ 7).
    go (s_stat _ _ _ 1 7 2%Z "b"). go (s_miss _ _ _ 1 7 1 2%Z). go (s_read _ _ _ 1 7 1 2%Z 2%Z "b" "b").
    go (s_eval _ _ _ 1 7 1 2%Z "b"). go (s_store _ _ _ 1 7 1 2%Z "b"). go (s_begin _ _ _ 7).
    apply rtc_refl.
  - reflexivity.
  - reflexivity.
  - go (s_stat _ _ _ 2 7 2%Z "b"). go (s_hit _ _ _ 2 7 1 2%Z "b" 2%Z).
    go (s_eval _ _ _ 2 7 1 2%Z "b"). go (s_store _ _ _ 2 7 1 2%Z "b"). apply rtc_refl.
  - reflexivity.
  - reflexivity.
Qed.

(** Otherwise the claim fails. First, two writes within one tick of the file
    system's clock: a load that begins after the second write uses the first
    content. *)
Theorem cache_granularity_refuted : ∃ (s0 s : state nat string string) g,
  reachable (@Some string) not_backwards s0 ∧ s_loads s0 !! 1 = Some (PStat 7) ∧
  rtc (step (@Some string) not_backwards) s0 s ∧ s_hist s 7 = s_hist s0 7 ∧
  s_loads s !! 1 = Some (PDone 7 g "old") ∧ current s 7 = Some (1%Z, "new").
Proof.
  eexists _, _, _. split_and!.
  - unfold reachable, initial. go (s_write _ _ _ 7 (Some (1%Z, "old"))). go (s_begin _ _ _ 7).
    go (s_stat _ _ _ 0 7 1%Z "old"). go (s_miss _ _ _ 0 7 0 1%Z). go (s_read _ _ _ 0 7 0 1%Z 1%Z "old" "old").
    go (s_eval _ _ _ 0 7 0 1%Z "old"). go (s_store _ _ _ 0 7 0 1%Z "old").
    go (s_write _ _ _ 7 (Some (1%Z, "new"))). go (s_begin _ _ _ 7). apply rtc_refl.
  - reflexivity.
  - go (s_stat _ _ _ 1 7 1%Z "new"). go (s_hit _ _ _ 1 7 1 1%Z "old" 1%Z).
    go (s_eval _ _ _ 1 7 1 1%Z "old"). go (s_store _ _ _ 1 7 1 1%Z "old"). apply rtc_refl.
  - reflexivity.
  - reflexivity.
  - reflexivity.
Qed.
Print Assumptions cache_granularity_refuted.

(** Second, times that go back, as when an older file is copied or moved there:
    the times differ, and still the content from before is used. *)
Theorem cache_backwards_refuted : ∃ (s0 s : state nat string string) g,
  reachable (@Some string) (λ _ _, True) s0 ∧ s_loads s0 !! 1 = Some (PStat 7) ∧
  rtc (step (@Some string) (λ _ _, True)) s0 s ∧ s_hist s 7 = s_hist s0 7 ∧
  s_hist s 7 = [Some (5%Z, "old"); Some (3%Z, "new")] ∧ s_loads s !! 1 = Some (PDone 7 g "old").
Proof.
  eexists _, _, _. split_and!.
  - unfold reachable, initial. go (s_write _ _ _ 7 (Some (5%Z, "old"))). go (s_begin _ _ _ 7).
    go (s_stat _ _ _ 0 7 5%Z "old"). go (s_miss _ _ _ 0 7 0 5%Z). go (s_read _ _ _ 0 7 0 5%Z 5%Z "old" "old").
    go (s_eval _ _ _ 0 7 0 5%Z "old"). go (s_store _ _ _ 0 7 0 5%Z "old").
    go (s_write _ _ _ 7 (Some (3%Z, "new"))). go (s_begin _ _ _ 7). apply rtc_refl.
  - reflexivity.
  - go (s_stat _ _ _ 1 7 3%Z "new"). go (s_hit _ _ _ 1 7 1 3%Z "old" 5%Z).
    go (s_eval _ _ _ 1 7 1 3%Z "old"). go (s_store _ _ _ 1 7 1 3%Z "old"). apply rtc_refl.
  - reflexivity.
  - reflexivity.
  - reflexivity.
Qed.
Print Assumptions cache_backwards_refuted.
