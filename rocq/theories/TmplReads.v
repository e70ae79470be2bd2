(** Templates that are written (TmplWritten.v) are read (Tmpl.v). *)
From Coq Require Import Ascii String Lia.
From stdpp Require Import base tactics strings list.
From Verif Require Import GoBase StrProofs Tmpl TmplParseProofs TmplWritten.
Local Open Scope string_scope. Local Open Scope list_scope.

(** ** Characters *)

Lemma blank_sp c : blank c ↔ is_sp c = true.
Proof.
  unfold blank. split.
  - intros H. repeat (apply elem_of_cons in H as [->|H]; [done|]). by apply elem_of_nil in H.
  - unfold is_sp. intros H. repeat setoid_rewrite elem_of_cons. repeat (apply orb_true_iff in H as [H|H]); apply Ascii.eqb_eq in H; subst; auto.
Qed.
Lemma letter_facts c : letter c = true → is_sp c = false ∧ Ascii.eqb c """" = false ∧ Ascii.eqb c "." = false ∧ Ascii.eqb c "$" = false ∧
  Ascii.eqb c "|" = false ∧ Ascii.eqb c "(" = false ∧ Ascii.eqb c ")" = false ∧ Ascii.eqb c "," = false ∧ Ascii.eqb c ":" = false ∧
  is_digit c = false ∧ is_alpha c = true ∧ Ascii.eqb c "}" = false.
Proof. destruct c as [[] [] [] [] [] [] [] []]; vm_compute; try discriminate; intros _; repeat split. Qed.
Lemma digit_facts c : is_digit c = true → is_sp c = false ∧ Ascii.eqb c """" = false ∧ Ascii.eqb c "." = false ∧ Ascii.eqb c "$" = false ∧
  Ascii.eqb c "|" = false ∧ Ascii.eqb c "(" = false ∧ Ascii.eqb c ")" = false ∧ Ascii.eqb c "," = false ∧ Ascii.eqb c ":" = false ∧ Ascii.eqb c "}" = false.
Proof. destruct c as [[] [] [] [] [] [] [] []]; vm_compute; try discriminate; intros _; repeat split. Qed.
Lemma wordly_alnum c : wordly c = is_alnum c.
Proof. done. Qed.

(** ** Actions *)

Definition la (s : string) := lex_act (S (len s)) s.
Lemma la_eq s : la s =
  let cons t r := '(ts, b, r) ← la r; Some (t :: ts, b, r) in
  match s with
  | "" => None
  | String c r =>
    if has_prefix "}}" s then Some ([], false, sdrop 2 s)
    else if is_sp c then if has_prefix "-}}" r then Some ([], true, sdrop 3 r) else cons KSpace r
    else if Ascii.eqb c """" then
      let '(q, r') := span (λ c, negb (Ascii.eqb c """" || Ascii.eqb c "\" || Ascii.eqb c "010")) r in
      match r' with String c' r'' => if Ascii.eqb c' """" then cons (KStr q) r'' else None | "" => None end
    else if Ascii.eqb c "." then
      match span is_alnum r with
      | (String d w, r') => if is_digit d then None else cons (KField (String d w)) r'
      | ("", _) => cons KDot r
      end
    else if Ascii.eqb c "$" then let '(w, r') := span is_alnum r in cons (KVar w) r'
    else if Ascii.eqb c "|" then cons KPipe r
    else if Ascii.eqb c "(" then cons KLeft r
    else if Ascii.eqb c ")" then cons KRight r
    else if Ascii.eqb c "," then cons KComma r
    else if has_prefix ":=" s then cons KDecl (sdrop 2 s)
    else if is_digit c then
      let '(w, r') := span is_digit s in
      match r' with
      | String d _ => if is_alpha d || Ascii.eqb d "." then None else cons (KNum (number_of 0 w)) r'
      | "" => None
      end
    else if is_alpha c then let '(w, r') := span is_alnum s in cons (KId w) r'
    else None
  end.
Proof.
  unfold la at 1. destruct s as [|c r]; [done|]. cbn [len]. assert (len r < S (len r)) as Hn by lia. revert Hn.
  generalize (S (len r)). intros n Hn. cbn [lex_act].
  assert (∀ (t : tok) r', len r' ≤ len r → ('(ts, b, r) ← lex_act n r'; Some (t :: ts, b, r)) = ('(ts, b, r) ← la r'; Some (t :: ts, b, r))) as C.
  { intros t r' L. unfold la. by rewrite (lex_act_fuel n (S (len r')) r') by lia. }
  cbv zeta. repeat match goal with
  | |- (if ?b then _ else _) = (if ?b then _ else _) => destruct b eqn:?
  | |- ?x = ?x => reflexivity
  end.
  - by apply C.
  - destruct (span _ r) as [q [|c' r'']] eqn:E; [done|]. destruct (Ascii.eqb c' """"); [|done]. apply C. apply span_len in E. simpl in E. lia.
  - destruct (span is_alnum r) as [[|d w] r'] eqn:E; [by apply C|]. destruct (is_digit d); [done|]. apply C. apply span_len in E. lia.
  - destruct (span is_alnum r) as [w r'] eqn:E. apply C. apply span_len in E. lia.
  - by apply C.
  - by apply C.
  - by apply C.
  - by apply C.
  - apply C. etransitivity; [apply (sdrop_le 2 (String c r))|simpl; lia].
  - destruct (span is_digit (String c r)) as [w r'] eqn:E. destruct r' as [|d r']; [done|]. destruct (is_alpha d || Ascii.eqb d "."); [done|].
    apply C. by eapply span_some.
  - destruct (span is_alnum (String c r)) as [w r'] eqn:E. apply C. eapply span_some; [done|]. unfold is_alnum. by apply orb_true_iff; left.
Qed.

Lemma span_all p a s : sforall p a = true → (match s with String c _ => p c = false | "" => True end) → span p (a +:+ s) = (a, s).
Proof.
  intros Ha Hs. induction a as [|c a IH]; simpl in *.
  - destruct s as [|c s]; [done|]. simpl. by rewrite Hs.
  - apply andb_true_iff in Ha as [H1 H2]. rewrite H1, IH by done. done.
Qed.

Lemma number_of_app acc a b : number_of acc (a +:+ b) = number_of (number_of acc a) b.
Proof. revert acc. induction a as [|c a IH]; intros acc; [done|]. simpl. apply IH. Qed.

Lemma number_of_dec n : number_of 0 (dec n) = n.
Proof.
  assert (∀ d acc, number_of acc (DecimalString.NilEmpty.string_of_uint d) = Nat.of_uint_acc d acc) as Hd.
  { induction d; intros acc; simpl; try done; rewrite IHd; f_equal; rewrite ?Nat.tail_mul_spec; unfold code; simpl; try lia. }
  unfold dec, DecimalString.NilZero.string_of_uint. pose proof (DecimalNat.Unsigned.of_to n) as Ho. unfold Nat.of_uint in Ho.
  destruct (Nat.to_uint n) eqn:E; [by simpl in *; subst|..]; rewrite Hd; exact Ho.
Qed.

Lemma follows t a d b s : may_follow t a → w_delim b d → may_follow t (a +:+ d +:+ s).
Proof.
  intros Hf Hd. destruct a as [|c a]; [|exact Hf]. rewrite sapp_nil_l. destruct Hd as [|c Hc].
  - destruct t; simpl; try done.
  - unfold blank in Hc. repeat (apply elem_of_cons in Hc as [->|Hc]; [by destruct t|]). by apply elem_of_nil in Hc.
Qed.
Lemma blank_cases c : blank c → c = " "%char ∨ c = "009"%char ∨ c = "013"%char ∨ c = "010"%char.
Proof. unfold blank. repeat setoid_rewrite elem_of_cons. rewrite elem_of_nil. naive_solver. Qed.

Lemma token_first t w : token t w → ∃ c r, w = String c r ∧ c ≠ "-"%char.
Proof.
  destruct 1 as [|f|v|w (c & r & -> & Hc & _)|s|n| | | | | |c Hc]; try (eexists _, _; by split).
  - exists c, r. split; [done|]. by intros ->.
  - pose proof (dec_digits n) as Hd. pose proof (dec_nonempty n). destruct (dec n) as [|c r]; [done|]. exists c, r. split; [done|].
    simpl in Hd. apply andb_true_iff in Hd as [Hd _]. by intros ->.
  - exists c, "". split; [done|]. apply blank_cases in Hc as [->|[->|[->| ->]]]; done.
Qed.
Lemma tokens_first ts a d b s : tokens ts a → w_delim b d → has_prefix "-}}" (a +:+ d +:+ s) = false.
Proof.
  intros Ht Hd. destruct Ht as [|t ts w a Hw _ _].
  - rewrite sapp_nil_l. destruct Hd as [|c Hc]; [done|]. apply blank_cases in Hc as [->|[->|[->| ->]]]; done.
  - destruct (token_first t w Hw) as (c & r & -> & Hc). destruct (has_prefix "-}}" _) eqn:E; [|done]. apply has_prefix_spec in E as [z E].
    by injection E.
Qed.

Lemma la_close b d s : w_delim b d → la (d +:+ s) = Some ([], b, s).
Proof.
  destruct 1 as [|c Hc]; rewrite la_eq; [done|]. apply blank_cases in Hc as [->|[->|[->| ->]]]; done.
Qed.
Lemma name_span f s : name f → (match s with String c _ => wordly c = false | "" => True end) → span is_alnum (f +:+ s) = (f, s).
Proof.
  intros (c & r & -> & Hc & Hr) Hs. apply (span_all is_alnum); [|done]. simpl. apply andb_true_iff. split; [|done].
  unfold is_alnum. change (is_alpha c) with (letter c). by rewrite Hc.
Qed.

Lemma la_tokens ts a b d s : tokens ts a → w_delim b d → la (a +:+ d +:+ s) = Some (ts, b, s).
Proof.
  intros Ht Hd. induction Ht as [|t ts w a Hw Hf Ht IH]; [rewrite sapp_nil_l; by apply la_close|].
  rewrite sapp_assoc. pose proof (follows t a d b s Hf Hd) as Hf'. pose proof (tokens_first ts a d b s Ht Hd) as Hm.
  revert IH Hf' Hm. generalize (a +:+ d +:+ s). clear Hf Ht a d Hd. intros r IH Hf Hm.
  destruct Hw as [|f Hn|v Hv|w Hn|q Hq|n| | | | | |c Hc].
  - rewrite la_eq. simpl. assert (∃ r', span is_alnum r = ("", r')) as [r' ->]; [|by rewrite IH].
    destruct r as [|c r]; [by eexists|]. simpl in Hf. unfold span. change (is_alnum c) with (wordly c). rewrite Hf. by eexists.
  - rewrite la_eq. rewrite sapp_assoc. simpl. rewrite name_span; [|done|by destruct r]. destruct Hn as (c & w & -> & Hc & _).
    destruct (letter_facts c Hc) as (_ & _ & _ & _ & _ & _ & _ & _ & _ & -> & _). by rewrite IH.
  - rewrite la_eq. rewrite sapp_assoc. simpl. rewrite (span_all is_alnum); [by rewrite IH|done|by destruct r].
  - destruct Hn as (c & w' & -> & Hc & Hr). assert (name (String c w')) as Hn' by (by exists c, w').
    pose proof (name_span (String c w') r Hn' ltac:(by destruct r)) as Hs. rewrite la_eq. rewrite sapp_cons. rewrite sapp_cons in Hs.
    destruct (letter_facts c Hc) as (F1 & F2 & F3 & F4 & F5 & F6 & F7 & F8 & F9 & F10 & F11 & F12). cbv zeta.
    assert (has_prefix "}}" (String c (w' +:+ r)) = false) as ->.
    { destruct (has_prefix "}}" _) eqn:E; [|done]. apply has_prefix_spec in E as [z E]. by injection E as ->. }
    assert (has_prefix ":=" (String c (w' +:+ r)) = false) as ->.
    { destruct (has_prefix ":=" _) eqn:E; [|done]. apply has_prefix_spec in E as [z E]. by injection E as ->. }
    rewrite F1, F2, F3, F4, F5, F6, F7, F8, F10, F11, Hs. by rewrite IH.
  - rewrite la_eq. rewrite sapp_assoc, sapp_assoc. cbv zeta. change ("""" +:+ q +:+ """" +:+ r) with (String """" (q +:+ String """" r)).
    change (has_prefix "}}" (String """" (q +:+ String """" r))) with false. cbv iota. change (is_sp """") with false. cbv iota.
    change (Ascii.eqb """" """") with true. cbv iota. rewrite (span_all _ q (String """" r)) by done. cbv iota. change (Ascii.eqb """" """") with true. cbv iota. by rewrite IH.
  - pose proof (number_of_dec n) as Hnd. pose proof (dec_digits n) as Hdd. pose proof (dec_nonempty n) as Hde. revert Hnd Hdd Hde. generalize (dec n).
    intros w Hnd Hdd Hde. destruct w as [|c w]; [done|].
    assert (span is_digit (String c w +:+ r) = (String c w, r)) as Hs.
    { apply span_all; [done|]. destruct r as [|c' r]; [done|]. simpl in Hf. destruct Hf as [Hf _]. unfold wordly in Hf. by apply orb_false_iff in Hf as [_ ?]. }
    rewrite la_eq. rewrite sapp_cons. rewrite sapp_cons in Hs. simpl in Hdd. apply andb_true_iff in Hdd as [Hc _].
    destruct (digit_facts c Hc) as (F1 & F2 & F3 & F4 & F5 & F6 & F7 & F8 & F9 & F10). cbv zeta.
    assert (has_prefix "}}" (String c (w +:+ r)) = false) as ->.
    { destruct (has_prefix "}}" _) eqn:E; [|done]. apply has_prefix_spec in E as [z E]. by injection E as ->. }
    assert (has_prefix ":=" (String c (w +:+ r)) = false) as ->.
    { destruct (has_prefix ":=" _) eqn:E; [|done]. apply has_prefix_spec in E as [z E]. by injection E as ->. }
    rewrite F1, F2, F3, F4, F5, F6, F7, F8, Hc, Hs. destruct r as [|c' r]; [by rewrite la_eq in IH|]. simpl in Hf. destruct Hf as [Hf Hdot].
    unfold wordly in Hf. apply orb_false_iff in Hf as [Hf _]. change (is_alpha c') with (letter c'). rewrite Hf.
    destruct (Ascii.eqb_spec c' "."); [done|]. simpl orb. cbv iota. rewrite IH, Hnd. done.
  - rewrite la_eq. simpl. by rewrite IH.
  - rewrite la_eq. simpl. by rewrite IH.
  - rewrite la_eq. simpl. by rewrite IH.
  - rewrite la_eq. simpl. by rewrite IH.
  - rewrite la_eq. simpl. by rewrite IH.
  - rewrite la_eq. cbv zeta. change (String c "" +:+ r) with (String c r).
    assert (has_prefix "}}" (String c r) = false) as -> by (apply blank_cases in Hc as [->|[->|[->| ->]]]; done).
    apply blank_sp in Hc. rewrite Hc, Hm. by rewrite IH.
Qed.

(** ** Pipelines *)

Definition pp (cmds : pipe) (cmd : list operand) (ts : list tok) := p_pipe (S (length ts)) cmds cmd ts.
Lemma pp_eq cmds cmd ts : pp cmds cmd ts =
  match ts with
  | [] | KRight :: _ => match cmd with [] => None | _ => Some (reverse (reverse cmd :: cmds), ts) end
  | KSpace :: r => pp cmds cmd r
  | KPipe :: r => match cmd with [] => None | _ => pp (reverse cmd :: cmds) [] r end
  | KLeft :: r =>
    '(p, r) ← pp [] [] r;
    match r with KRight :: r => pp cmds (OParen p :: cmd) r | _ => None end
  | KField _ :: _ => let '(fs, r) := take_fields ts in pp cmds (OField fs :: cmd) r
  | KVar v :: r => let '(fs, r) := take_fields r in pp cmds (OVar v fs :: cmd) r
  | KDot :: r => pp cmds (ODot :: cmd) r
  | KStr s :: r => pp cmds (OStr s :: cmd) r
  | KNum k :: r => pp cmds (ONum k :: cmd) r
  | KId w :: r =>
    let o := if String.eqb w "true" then OBool true else if String.eqb w "false" then OBool false
             else if String.eqb w "nil" then ONil else OFunc w in
    pp cmds (o :: cmd) r
  | KComma :: _ | KDecl :: _ => None
  end.
Proof.
  unfold pp at 1. destruct ts as [|t r]; [done|]. cbn [length]. assert (length r < S (length r)) as Hn by lia. revert Hn.
  generalize (S (length r)). intros n Hn. cbn [p_pipe].
  assert (∀ cmds cmd r', length r' ≤ length r → p_pipe n cmds cmd r' = pp cmds cmd r') as C.
  { intros. unfold pp. apply p_pipe_fuel; lia. }
  destruct t; try done; try (by apply C).
  - destruct (take_fields (KField f :: r)) as [fs r'] eqn:E. apply take_fields_len in E as [_ E]. simpl in E. apply C. lia.
  - destruct (take_fields r) as [fs r'] eqn:E. apply take_fields_len in E as [E _]. by apply C.
  - destruct cmd; [done|]. by apply C.
  - rewrite (C [] [] r) by done. destruct (pp [] [] r) as [[p r']|] eqn:E; [|done]. simpl. unfold pp in E. apply p_pipe_len in E.
    destruct r' as [|[] r']; try done. apply C. simpl in E. lia.
Qed.

(** What comes after an operand. *)
Definition after (ts : list tok) : Prop := match ts with [] | (KSpace | KPipe | KRight) :: _ => True | _ => False end.
Lemma fields_taken fs r : after r → take_fields (map KField fs ++ r) = (fs, r).
Proof.
  intros Hr. induction fs as [|f fs IH]; simpl; [by destruct r as [|[] r]|]. by rewrite IH.
Qed.
Lemma pp_spaces sp : spaces sp → ∀ cmds cmd r, pp cmds cmd (sp ++ r) = pp cmds cmd r.
Proof. induction 1 as [|t sp <- _ IH]; intros; [done|]. simpl. rewrite pp_eq. by apply IH. Qed.
Lemma spaces_after sp r : spaces sp → after r → after (sp ++ r).
Proof. intros [|? ? <- ?]; done. Qed.

Lemma pp_reads :
  (∀ o ts, w_operand o ts → ∀ cmds cmd r, after r → pp cmds cmd (ts ++ r) = pp cmds (o :: cmd) r) ∧
  (∀ c ts, w_command c ts → c ≠ [] ∧ ∀ cmds cmd r, after r → pp cmds cmd (ts ++ r) = pp cmds (reverse c ++ cmd) r) ∧
  (∀ p ts, w_pipeline p ts → ∀ cmds r, (r = [] ∨ ∃ r', r = KRight :: r') → pp cmds [] (ts ++ r) = Some (reverse cmds ++ p, r)).
Proof.
  apply w_pipeline_all.
  - intros cmds cmd r Hr. simpl. by rewrite pp_eq.
  - intros f fs cmds cmd r Hr. rewrite pp_eq. simpl app at 1. cbv iota. rewrite (fields_taken (f :: fs)) by done. done.
  - intros v fs cmds cmd r Hr. rewrite pp_eq. simpl app at 1. cbv iota. rewrite fields_taken by done. done.
  - intros f _ Hc cmds cmd r Hr. simpl. rewrite pp_eq. unfold constants in Hc. repeat setoid_rewrite elem_of_cons in Hc.
    destruct (String.eqb_spec f "true"); [naive_solver|]. destruct (String.eqb_spec f "false"); [naive_solver|]. destruct (String.eqb_spec f "nil"); [naive_solver|]. done.
  - intros s cmds cmd r Hr. simpl. by rewrite pp_eq.
  - intros n cmds cmd r Hr. simpl. by rewrite pp_eq.
  - intros cmds cmd r Hr. simpl. by rewrite pp_eq.
  - intros cmds cmd r Hr. simpl. by rewrite pp_eq.
  - intros cmds cmd r Hr. simpl. by rewrite pp_eq.
  - intros p ts _ IH cmds cmd r Hr. simpl. rewrite pp_eq. rewrite <- (assoc_L (++)). rewrite (IH [] ([KRight] ++ r)) by (right; by exists r). done.
  - intros o ts _ IH. split; [done|]. intros cmds cmd r Hr. rewrite IH by done. done.
  - intros o ts sp cmd ts' _ IHo Hsp Hs _ [Hc IHc]. split; [done|]. intros cmds cmd0 r Hr. rewrite <- !(assoc_L (++)).
    rewrite IHo by (destruct Hs as [|? ? <- ?]; done). rewrite pp_spaces by done. rewrite IHc by done. by rewrite reverse_cons, <- (assoc_L (++)).
  - intros sp1 cmd ts sp2 H1 H2 _ [Hc IH] cmds r Hr. rewrite <- !(assoc_L (++)). rewrite pp_spaces by done.
    rewrite IH by (apply spaces_after; [done|]; destruct Hr as [->|[r' ->]]; done). rewrite app_nil_r, pp_spaces by done.
    assert (reverse cmd ≠ []) as Hn by (intros E; apply (f_equal reverse) in E; by rewrite reverse_involutive in E).
    rewrite pp_eq. destruct Hr as [->|[r' ->]]; (destruct (reverse cmd) eqn:E; [done|]; rewrite <- E, reverse_involutive, reverse_cons; done).
  - intros sp1 cmd ts sp2 cmd' p ts' H1 H2 _ [Hc IH] _ IHp _ cmds r Hr. rewrite <- !(assoc_L (++)). rewrite pp_spaces by done.
    rewrite IH by (apply spaces_after; done). rewrite app_nil_r, pp_spaces by done. simpl app at 1.
    assert (reverse cmd ≠ []) as Hn by (intros E; apply (f_equal reverse) in E; by rewrite reverse_involutive in E).
    rewrite pp_eq. destruct (reverse cmd) eqn:E; [done|]. rewrite <- E, reverse_involutive. rewrite (IHp (cmd :: cmds) r Hr). by rewrite reverse_cons, <- (assoc_L (++)).
Qed.
Lemma pipe_reads p ts : w_pipeline p ts → pipe_of ts = Some p.
Proof.
  intros H. unfold pipe_of. change (p_pipe (S (length ts)) [] [] ts) with (pp [] [] ts).
  rewrite <- (app_nil_r ts). rewrite (proj2 (proj2 pp_reads) p ts H [] []) by by left. done.
Qed.

(** ** Nodes *)

Definition pl (top : bool) (is : list item) := p_list (S (length is)) top is.
Definition add (x : node) (o : option (list node * list (string * list node) * ending * list item)) :=
  '(ns, ds, e, r) ← o; Some (x :: ns, ds, e, r).
Definition control (top : bool) (k : list node → list node → node) r :=
  '(t, _, e, r) ← pl false r;
  match e with
  | EEnd => add (k t []) (pl top r)
  | EElse =>
    '(f, _, e, r) ← pl false r;
    match e with EEnd => add (k t f) (pl top r) | _ => None end
  | EFile => None
  end.
Lemma pl_eq top is : pl top is =
    match is with
    | [] => Some ([], [], EFile, [])
    | IText s :: r => add (NText s) (pl top r)
    | IAct ts :: r =>
      match skip_space ts with
      | KId w :: ts' =>
        if String.eqb w "end" then match skip_space ts' with [] => Some ([], [], EEnd, r) | _ => None end
        else if String.eqb w "else" then match skip_space ts' with [] => Some ([], [], EElse, r) | _ => None end
        else if String.eqb w "if" then p ← pipe_of ts'; control top (NIf p) r
        else if String.eqb w "with" then p ← pipe_of ts'; control top (NWith p) r
        else if String.eqb w "range" then
          let '(vs, ts') := decl_of ts' in p ← pipe_of ts'; control top (NRange vs p) r
        else if String.eqb w "template" then
          match skip_space ts' with
          | KStr name :: ts' =>
            match skip_space ts' with
            | [] => add (NCall name None) (pl top r)
            | ts' => p ← pipe_of ts'; add (NCall name (Some p)) (pl top r)
            end
          | _ => None
          end
        else if String.eqb w "define" then
          match top, skip_space ts' with
          | true, KStr name :: ts' =>
            match skip_space ts' with
            | [] =>
              '(t, _, e, r) ← pl false r;
              match e with
              | EEnd => '(ns, ds, e, r) ← pl true r; Some (ns, (name, t) :: ds, e, r)
              | _ => None
              end
            | _ => None
            end
          | _, _ => None
          end
        else if String.eqb w "block" || String.eqb w "break" || String.eqb w "continue" then None
        else p ← pipe_of ts; add (NAct XRaw p) (pl top r)
      | _ =>
        match decl_of ts with
        | ([v], ts') => p ← pipe_of ts'; add (NDecl v p) (pl top r)
        | _ => p ← pipe_of ts; add (NAct XRaw p) (pl top r)
        end
      end
    end.
Proof.
  unfold pl at 1. destruct is as [|x r]; [done|]. cbn [length]. assert (length r < S (length r)) as Hn by lia. revert Hn.
  generalize (S (length r)). intros n Hn. cbn [p_list].
  assert (∀ top r', length r' ≤ length r → p_list n top r' = pl top r') as C.
  { intros. unfold pl. apply p_list_fuel; lia. }
  assert (∀ x r', length r' ≤ length r → ('(ns, ds, e, r) ← p_list n top r'; Some (x :: ns, ds, e, r)) = add x (pl top r')) as C1.
  { intros x' r' L. by rewrite C. }
  assert (∀ top r' ns ds e r'', pl top r' = Some (ns, ds, e, r'') → length r' ≤ length r → length r'' ≤ length r) as L.
  { intros top' r' ns ds e r'' E. unfold pl in E. apply p_list_len in E. lia. }
  assert (∀ k, ('(t, _, e, r) ← p_list n false r;
      match e with
      | EEnd => '(ns, ds, e, r) ← p_list n top r; Some (k t [] :: ns, ds, e, r)
      | EElse =>
        '(f, _, e, r) ← p_list n false r;
        match e with EEnd => '(ns, ds, e, r) ← p_list n top r; Some (k t f :: ns, ds, e, r) | _ => None end
      | EFile => None
      end) = control top k r) as C2.
  { intros k. unfold control. rewrite (C false r) by done. destruct (pl false r) as [[[[t ds] e] r1]|] eqn:E; [|done]. simpl.
    assert (length r1 ≤ length r) as L1 by (by eapply L). destruct e; [by rewrite C| |done]. rewrite (C false r1) by done.
    destruct (pl false r1) as [[[[f ds'] e] r2]|] eqn:E2; [|done]. simpl. assert (length r2 ≤ length r) as L2 by (by eapply L). destruct e; [by rewrite C|done..]. }
  destruct x as [s|ts]; [by apply C1|]. cbv zeta.
  assert (match decl_of ts with
    | ([v], ts') => p ← pipe_of ts'; '(ns, ds, e, r) ← p_list n top r; Some (NDecl v p :: ns, ds, e, r)
    | _ => p ← pipe_of ts; '(ns, ds, e, r) ← p_list n top r; Some (NAct XRaw p :: ns, ds, e, r)
    end = match decl_of ts with
    | ([v], ts') => p ← pipe_of ts'; add (NDecl v p) (pl top r)
    | _ => p ← pipe_of ts; add (NAct XRaw p) (pl top r)
    end) as C3.
  { rewrite (C top r) by done. done. }
  destruct (skip_space ts) as [|[| | |w| | | | | | | |] ts']; try exact C3.
  repeat match goal with |- (if ?b then _ else _) = (if ?b then _ else _) => destruct b; [|] end; try done.
  - destruct (pipe_of ts'); [|done]. simpl. apply C2.
  - destruct (pipe_of ts'); [|done]. simpl. apply C2.
  - destruct (decl_of ts') as [vs ts1]. destruct (pipe_of ts1); [|done]. simpl. apply C2.
  - destruct (skip_space ts') as [|[] ts1]; try done. rewrite (C top r) by done. done.
  - destruct (skip_space ts') as [|[] ts1]; try done. destruct (skip_space ts1); [|done].
    rewrite (C false r) by done. destruct (pl false r) as [[[[t ds] e] r1]|] eqn:E; [|done]. simpl. destruct e; try done.
    rewrite C by (by eapply L). done.
  - rewrite (C top r) by done. done.
Qed.

Lemma skip_spaces sp r : spaces sp → skip_space (sp ++ r) = skip_space r.
Proof. induction 1 as [|t sp <- _ IH]; [done|]. simpl. exact IH. Qed.
Lemma skip_all sp : spaces sp → skip_space sp = [].
Proof. intros H. rewrite <- (app_nil_r sp). by rewrite skip_spaces. Qed.
Lemma skipped ts : ∃ sp, spaces sp ∧ ts = sp ++ skip_space ts.
Proof.
  induction ts as [|t ts (sp & H1 & H2)]; [exists []; split; [constructor|done]|]. destruct t; try (exists []; split; [constructor|done]). exists (KSpace :: sp). split; [by constructor|]. simpl. by rewrite <- H2.
Qed.
Lemma pipe_of_skip ts : pipe_of (skip_space ts) = pipe_of ts.
Proof.
  destruct (skipped ts) as (sp & H1 & H2). rewrite H2 at 2. unfold pipe_of.
  change (p_pipe (S (length (skip_space ts))) [] [] (skip_space ts)) with (pp [] [] (skip_space ts)).
  change (p_pipe (S (length (sp ++ skip_space ts))) [] [] (sp ++ skip_space ts)) with (pp [] [] (sp ++ skip_space ts)).
  by rewrite pp_spaces.
Qed.

Definition plain_tok (t : tok) : Prop := t ≠ KDecl ∧ t ≠ KComma.
Definition head_tok (t : tok) : Prop := t ≠ KSpace ∧ ∀ w, t = KId w → w ∉ keywords.
Lemma spaces_plain sp : spaces sp → Forall plain_tok sp.
Proof. intros H. eapply Forall_impl; [exact H|]. by intros ? <-. Qed.
Lemma pipeline_tokens :
  (∀ o ts, w_operand o ts → Forall plain_tok ts ∧ ∃ t r, ts = t :: r ∧ head_tok t) ∧
  (∀ c ts, w_command c ts → Forall plain_tok ts ∧ ∃ t r, ts = t :: r ∧ head_tok t) ∧
  (∀ p ts, w_pipeline p ts → Forall plain_tok ts ∧ ∃ t r, skip_space ts = t :: r ∧ head_tok t).
Proof.
  assert (∀ fs, Forall plain_tok (map KField fs)) as HF by (induction fs; by constructor).
  assert (∀ t r r', head_tok t → skip_space ((t :: r) ++ r') = t :: r ++ r') as HS by (by intros t r r' [? _]; destruct t).
  apply w_pipeline_all.
  - split; [by repeat constructor|]. by eexists _, _.
  - intros f fs. split; [apply HF|]. eexists _, _. split; [done|]. split; done.
  - intros v fs. split; [constructor; [done|apply HF]|]. eexists _, _. split; [done|]. split; done.
  - intros f Hk _. split; [by repeat constructor|]. eexists _, _. split; [done|]. split; [done|]. by intros w [= <-].
  - intros s. split; [by repeat constructor|]. by eexists _, _.
  - intros n. split; [by repeat constructor|]. by eexists _, _.
  - split; [by repeat constructor|]. eexists _, _. split; [done|]. split; [done|]. intros w [= <-]. apply (bool_decide_unpack _). vm_compute. exact I.
  - split; [by repeat constructor|]. eexists _, _. split; [done|]. split; [done|]. intros w [= <-]. apply (bool_decide_unpack _). vm_compute. exact I.
  - split; [by repeat constructor|]. eexists _, _. split; [done|]. split; [done|]. intros w [= <-]. apply (bool_decide_unpack _). vm_compute. exact I.
  - intros p ts _ [H _]. split; [constructor; [done|]; apply Forall_app; split; [done|by repeat constructor]|]. by eexists _, _.
  - done.
  - intros o ts sp cmd ts' _ [H1 (t & r & -> & Ht)] _ Hs _ [H2 _]. split; [|by eexists _, _].
    apply Forall_app. split; [done|]. apply Forall_app. split; [by apply spaces_plain|done].
  - intros sp1 cmd ts sp2 H1 H2 _ [H (t & r & -> & Ht)]. split.
    + apply Forall_app. split; [by apply spaces_plain|]. apply Forall_app. split; [done|by apply spaces_plain].
    + rewrite skip_spaces by done. rewrite HS by done. by eexists _, _.
  - intros sp1 cmd ts sp2 cmd' p ts' H1 H2 _ [H (t & r & -> & Ht)] _ [H' _] _. split.
    + apply Forall_app. split; [by apply spaces_plain|]. apply Forall_app. split; [done|]. apply Forall_app. split; [by apply spaces_plain|by constructor].
    + rewrite skip_spaces by done. rewrite HS by done. by eexists _, _.
Qed.
Lemma no_decl ts : Forall plain_tok ts → decl_of ts = ([], ts).
Proof.
  assert (∀ ts, Forall plain_tok ts → Forall plain_tok (skip_space ts)) as HS.
  { intros l H. destruct (skipped l) as (sp & _ & E). rewrite E in H. by apply Forall_app in H as [_ ?]. }
  intros H. unfold decl_of. pose proof (HS ts H) as H1. destruct (skip_space ts) as [|[] r]; try done.
  inversion H1 as [|? ? _ H2]; subst. pose proof (HS r H2) as H3. destruct (skip_space r) as [|[] r']; try done; by inversion H3 as [|? ? [? ?] _]; subst.
Qed.
Lemma vars_read vs tv ts : w_vars vs tv → Forall plain_tok ts → decl_of (tv ++ ts) = (vs, ts).
Proof.
  destruct 1 as [|sp1 v sp2 H1 H2|sp1 v sp2 sp3 w sp4 H1 H2 H3 H4]; intros H.
  - by apply no_decl.
  - unfold decl_of. rewrite <- (assoc_L (++)). rewrite skip_spaces by done. simpl. rewrite <- (assoc_L (++)). by rewrite skip_spaces by done.
  - unfold decl_of. rewrite <- (assoc_L (++)). rewrite skip_spaces by done. simpl. rewrite <- (assoc_L (++)). rewrite skip_spaces by done. simpl.
    rewrite <- (assoc_L (++)). rewrite skip_spaces by done. simpl. rewrite <- (assoc_L (++)). by rewrite skip_spaces by done.
Qed.

Definition adds (ns : list node) (o : option (list node * list (string * list node) * ending * list item)) :=
  '(ns', ds, e, r) ← o; Some (ns ++ ns', ds, e, r).
Lemma pl_end ts r top : only "end" ts → pl top (IAct ts :: r) = Some ([], [], EEnd, r).
Proof. intros (sp1 & sp2 & H1 & H2 & ->). rewrite pl_eq. rewrite skip_spaces by done. simpl. by rewrite skip_all. Qed.
Lemma pl_else ts r top : only "else" ts → pl top (IAct ts :: r) = Some ([], [], EElse, r).
Proof. intros (sp1 & sp2 & H1 & H2 & ->). rewrite pl_eq. rewrite skip_spaces by done. simpl. by rewrite skip_all. Qed.

Lemma pl_reads :
  (∀ x is, w_node x is → ∀ top r, pl top (is ++ r) = add x (pl top r)) ∧
  (∀ ns is, w_nodes ns is → ∀ top r, pl top (is ++ r) = adds ns (pl top r)) ∧
  (∀ t e is, w_branches t e is → ∀ top k r, control top k (is ++ r) = add (k t e) (pl top r)).
Proof.
  destruct pipeline_tokens as (_ & _ & PT). apply w_node_all.
  - intros s top r. by rewrite pl_eq.
  - intros p ts Hp top r. rewrite pl_eq. simpl app. cbv iota. pose proof (pipe_reads p ts Hp) as Hr. destruct (PT p ts Hp) as (Hpl & t & r' & Hs & _ & Hk).
    rewrite Hs. rewrite (no_decl ts Hpl), Hr. simpl. destruct t as [| | |w| | | | | | | |]; try done.
    specialize (Hk w eq_refl). unfold keywords in Hk. repeat setoid_rewrite elem_of_cons in Hk.
    repeat match goal with |- context [String.eqb w ?k] => destruct (String.eqb_spec w k); [naive_solver|] end. done.
  - intros sp1 v sp2 p ts H1 H2 Hp top r. rewrite pl_eq. simpl app. cbv iota. rewrite skip_spaces by done. simpl.
    assert (decl_of (sp1 ++ KVar v :: sp2 ++ KDecl :: ts) = ([v], ts)) as ->.
    { unfold decl_of. rewrite skip_spaces by done. simpl. by rewrite skip_spaces by done. }
    by rewrite (pipe_reads p ts Hp).
  - intros sp p ts t e is H1 Hp _ IH top r. rewrite pl_eq. simpl app. cbv iota. rewrite skip_spaces by done. simpl. rewrite (pipe_reads p ts Hp). simpl. apply IH.
  - intros sp p ts t e is H1 Hp _ IH top r. rewrite pl_eq. simpl app. cbv iota. rewrite skip_spaces by done. simpl. rewrite (pipe_reads p ts Hp). simpl. apply IH.
  - intros sp vs tv p ts t e is H1 Hv Hp _ IH top r. rewrite pl_eq. simpl app. cbv iota. rewrite skip_spaces by done. simpl.
    rewrite (vars_read vs tv ts Hv (proj1 (PT p ts Hp))). rewrite (pipe_reads p ts Hp). simpl. apply (IH top (NRange vs p)).
  - intros sp1 sp2 sp3 n H1 H2 H3 top r. rewrite pl_eq. simpl app. cbv iota. rewrite skip_spaces by done. simpl. rewrite skip_spaces by done. simpl. by rewrite skip_all.
  - intros sp1 sp2 n p ts H1 H2 Hp top r. rewrite pl_eq. simpl app. cbv iota. rewrite skip_spaces by done. simpl. rewrite skip_spaces by done. simpl.
    pose proof (pipe_reads p ts Hp) as Hr. rewrite <- pipe_of_skip in Hr. destruct (PT p ts Hp) as (_ & t & r' & Hs & _). rewrite Hs in *. by rewrite Hr.
  - intros top r. simpl. by destruct (pl top r) as [[[[? ?] ?] ?]|].
  - intros x is ns is' _ IHx _ IHn top r. rewrite <- (assoc_L (++)). rewrite IHx, IHn. by destruct (pl top r) as [[[[? ?] ?] ?]|].
  - intros t is ts _ IH He top k r. unfold control. rewrite <- (assoc_L (++)). rewrite IH. simpl app. rewrite pl_end by done. simpl. by rewrite app_nil_r.
  - intros t is ts e is' ts' _ IHt Hel _ IHe He top k r. unfold control. rewrite <- (assoc_L (++)). rewrite IHt. simpl app. rewrite pl_else by done. simpl.
    rewrite <- (assoc_L (++)). rewrite IHe. simpl app. rewrite pl_end by done. simpl. by rewrite !app_nil_r.
Qed.

Lemma file_reads ns ds is : w_file ns ds is → pl true is = Some (ns, ds, EFile, []).
Proof.
  destruct pl_reads as (RN & RL & _). induction 1 as [|x is ns ds is' Hx _ IH|sp1 sp2 n sp3 t is ts ns ds is' H1 H2 H3 Ht He _ IH].
  - done.
  - rewrite (RN x is Hx), IH. done.
  - rewrite pl_eq. rewrite skip_spaces by done. simpl. rewrite skip_spaces by done. simpl. rewrite skip_all by done.
    rewrite (RL t is Ht). rewrite pl_end by done. simpl. rewrite IH. simpl. by rewrite app_nil_r.
Qed.

(** ** Sources *)

Lemma split_last t : no_action t → split_open t = (t, None).
Proof.
  induction t as [|c t IH]; intros H; [done|]. cbn [split_open]. destruct (has_prefix "{{" (String c t)) eqn:E.
  - apply has_prefix_spec in E as [z E]. by destruct (H "" z).
  - rewrite IH; [done|]. intros a z ->. by apply (H (String c a) z).
Qed.
Lemma split_action t r : no_action (t +:+ "{") → split_open (t +:+ "{{" +:+ r) = (t, Some r).
Proof.
  induction t as [|c t IH]; intros H; [done|]. rewrite sapp_cons. cbn [split_open]. destruct (has_prefix "{{" (String c (t +:+ "{{" +:+ r))) eqn:E.
  - exfalso. apply has_prefix_spec in E as [z E]. injection E as -> E. destruct t as [|c t]; [by apply (H "" "")|]. injection E as -> E. by apply (H "" (t +:+ "{")).
  - rewrite IH; [done|]. intros a z E'. apply (H (String c a) z). change (String c (t +:+ "{") = String c (a +:+ "{{" +:+ z)). by f_equal.
Qed.

Lemma trim_left_blanks a s : blanks a → trim_left_sp (a +:+ s) = trim_left_sp s.
Proof.
  intros H. induction a as [|c a IH]; [done|]. simpl. assert (is_sp c = true) as -> by (apply blank_sp, H; simpl; by left).
  apply IH. intros c' Hc'. apply H. simpl. by right.
Qed.
Lemma trim_left_stays s : (match s with String c _ => ¬ blank c | "" => True end) → trim_left_sp s = s.
Proof. destruct s as [|c s]; [done|]. simpl. intros H. rewrite blank_sp in H. by destruct (is_sp c). Qed.
Lemma trim_right_blanks z : blanks z → trim_right_sp z = "".
Proof.
  intros H. induction z as [|c z IH]; [done|]. simpl. rewrite IH by (intros c' Hc'; apply H; simpl; by right).
  assert (is_sp c = true) as -> by (apply blank_sp, H; simpl; by left). done.
Qed.
Lemma trim_right_app u z : blanks z → trim_right_sp (u +:+ z) = trim_right_sp u.
Proof. intros H. induction u as [|c u IH]; [by apply trim_right_blanks|]. simpl. by rewrite IH. Qed.
Lemma trim_right_stays u : (∀ v c, u = v +:+ String c "" → ¬ blank c) → trim_right_sp u = u.
Proof.
  induction u as [|c u IH]; intros H; [done|]. simpl. rewrite IH by (intros v c' ->; by apply (H (String c v))).
  destruct u as [|c' u]; [|done]. specialize (H "" c eq_refl). rewrite blank_sp in H. by destruct (is_sp c).
Qed.
Lemma cut_trims l r t u : cut l r t u → (let t := if l then trim_left_sp t else t in if r then trim_right_sp t else t) = u.
Proof.
  intros (a & z & -> & Hl & Hr). cbv zeta.
  assert ((if l then trim_left_sp (a +:+ u +:+ z) else a +:+ u +:+ z) = u +:+ z ∨ (u = "" ∧ r = true ∧ (if l then trim_left_sp (a +:+ u +:+ z) else a +:+ u +:+ z) = "")) as [->|(-> & -> & ->)].
  - destruct l; [|subst a; by left]. destruct Hl as [Ha Hu]. rewrite trim_left_blanks by done. destruct u as [|c u].
    + destruct r; [right|subst z; by left]. destruct Hr as [Hz _]. split; [done|]. split; [done|]. rewrite sapp_nil_l, <- (sapp_nil_r z). by rewrite trim_left_blanks.
    + left. by rewrite trim_left_stays.
  - destruct r; [|subst z; by rewrite sapp_nil_r]. destruct Hr as [Hz Hu]. rewrite trim_right_app by done. by apply trim_right_stays.
  - done.
Qed.

Definition lx (trim : bool) (s : string) := lex (S (len s)) trim s.
Lemma lx_last l t u : no_action t → cut l false t u → lx l t = Some (text_item u).
Proof.
  intros H Hc. apply cut_trims in Hc. cbv zeta in Hc. unfold lx. cbn [lex]. rewrite split_last by done. cbv zeta. rewrite Hc. done.
Qed.
Lemma lx_action l t rt u r0 ts b s is : no_action (t +:+ "{") → cut l rt t u →
  (match r0 with String d (String e _) => Ascii.eqb d "-" && is_sp e | _ => false end) = rt →
  la (if rt then sdrop 1 r0 else r0) = Some (ts, b, s) → lx b s = Some is →
  lx l (t +:+ "{{" +:+ r0) = Some (text_item u ++ IAct ts :: is).
Proof.
  intros H Hc Hr Ha Hs. apply cut_trims in Hc. cbv zeta in Hc. unfold lx at 1.
  assert (len (t +:+ "{{" +:+ r0) = len t + S (S (len r0))) as Hl by (rewrite slength_app; done).
  remember (len (t +:+ "{{" +:+ r0)) as n eqn:En. clear En. cbn [lex]. rewrite split_action by done. cbv zeta. rewrite Hr.
  assert (len (if rt then sdrop 1 r0 else r0) ≤ len r0) as L by (destruct rt; [|done]; etransitivity; [apply (sdrop_le 1 r0)|lia]).
  rewrite (lex_act_fuel (S (len r0)) (S (len (if rt then sdrop 1 r0 else r0)))) by lia.
  change (lex_act (S (len (if rt then sdrop 1 r0 else r0))) (if rt then sdrop 1 r0 else r0)) with (la (if rt then sdrop 1 r0 else r0)).
  rewrite Ha. simpl base.mbind. unfold la in Ha. apply lex_act_len in Ha.
  assert (lex n b s = lx b s) as ->.
  { unfold lx. apply lex_fuel; lia. }
  rewrite Hs. simpl. rewrite Hc. done.
Qed.

Lemma tokens_dash ts a b d s : tokens ts a → w_delim b d → match a +:+ d +:+ s with String c _ => Ascii.eqb c "-" = false | "" => True end.
Proof.
  intros Ht Hd. destruct Ht as [|t ts w a Hw _ _].
  - rewrite sapp_nil_l. destruct Hd as [|c Hc]; [done|]. apply blank_cases in Hc as [->|[->|[->| ->]]]; done.
  - destruct (token_first t w Hw) as (c & r & -> & Hc). simpl. by apply Ascii.eqb_neq.
Qed.

Lemma source_reads l s is : w_source l s is → lx l s = Some is.
Proof.
  induction 1 as [l t u Hn Hc|l t u a ts r d s is Hn Hc Ht Hd _ IH|l t u c a ts r d s is Hn Hc Hb Ht Hd _ IH].
  - by apply lx_last.
  - apply (lx_action l t false u _ ts r s is Hn Hc); [|by apply la_tokens|done].
    pose proof (tokens_dash ts a r d s Ht Hd) as Hx. destruct (a +:+ d +:+ s) as [|x [|y z]]; try done. by rewrite Hx.
  - change ("{{-" +:+ String c a +:+ d +:+ s) with ("{{" +:+ String "-" (String c a +:+ d +:+ s)).
    apply (lx_action l t true u _ (KSpace :: ts) r s is Hn Hc); [|by apply (la_tokens (KSpace :: ts) (String c a))|done].
    simpl. by apply blank_sp.
Qed.

Lemma template_reads nm ns ds s : template_text ns ds s → bodies_of nm s = Some (ds ++ [(nm, ns)]).
Proof.
  intros (is & Hs & Hf). apply source_reads in Hs. apply file_reads in Hf. unfold lx in Hs. unfold pl in Hf. unfold bodies_of. rewrite Hs. unfold base.mbind, option_bind. rewrite Hf. done.
Qed.
