(** How templates are written: the syntax of the documentation of Go's text/template,
    for the part of it that is modelled (see Tmpl.v). *)
From Coq Require Import Ascii String.
From stdpp Require Import base strings list.
From Verif Require Import GoBase Tmpl.
Local Open Scope string_scope. Local Open Scope list_scope.

(** ** Tokens *)

Definition letter (c : ascii) : bool := is_lower c || is_upper c || Ascii.eqb c "_".
Definition wordly (c : ascii) : bool := letter c || is_digit c.
Definition blank (c : ascii) : Prop := c ∈ [" "; "009"; "013"; "010"]%char.
Definition blanks (s : string) : Prop := ∀ c, c ∈ list_ascii_of_string s → blank c.
(** A letter and then letters and digits. *)
Definition name (w : string) : Prop := ∃ c r, w = String c r ∧ letter c = true ∧ sforall wordly r = true.

Inductive token : tok → string → Prop :=
| w_dot : token KDot "."
| w_field f : name f → token (KField f) ("." +:+ f)
| w_var v : sforall wordly v = true → token (KVar v) ("$" +:+ v)
| w_id w : name w → token (KId w) w
| w_str s : sforall (λ c, negb (Ascii.eqb c """" || Ascii.eqb c "\" || Ascii.eqb c "010")) s = true → token (KStr s) ("""" +:+ s +:+ """")
| w_num n : token (KNum n) (dec n)
| w_pipe : token KPipe "|"
| w_left : token KLeft "("
| w_right : token KRight ")"
| w_comma : token KComma ","
| w_decl : token KDecl ":="
| w_space c : blank c → token KSpace (String c "").

(** What may come directly after a token: words and numbers end where they seem to. *)
Definition may_follow (t : tok) (s : string) : Prop :=
  match s, t with
  | String c _, (KDot | KField _ | KVar _ | KId _) => wordly c = false
  | String c _, KNum _ => wordly c = false ∧ c ≠ "."%char
  | _, _ => True
  end.

Inductive tokens : list tok → string → Prop :=
| w_none : tokens [] ""
| w_token t ts w s : token t w → may_follow t s → tokens ts s → tokens (t :: ts) (w +:+ s).

(** ** Pipelines *)

Definition keywords : list string := ["end"; "else"; "if"; "with"; "range"; "template"; "define"; "block"; "break"; "continue"].
Definition constants : list string := ["true"; "false"; "nil"].
Definition spaces (ts : list tok) : Prop := Forall (eq KSpace) ts.
(** What can be given the value of the command before. *)
Definition takes_value (cmd : list operand) : Prop :=
  match cmd with (OField _ | OVar _ _ | OFunc _ | OParen _) :: _ => True | _ => False end.

Inductive w_operand : operand → list tok → Prop :=
| w_odot : w_operand ODot [KDot]
| w_ofield f fs : w_operand (OField (f :: fs)) (map KField (f :: fs))
| w_ovar v fs : w_operand (OVar v fs) (KVar v :: map KField fs)
| w_ofunc f : f ∉ keywords → f ∉ constants → w_operand (OFunc f) [KId f]
| w_ostr s : w_operand (OStr s) [KStr s]
| w_onum n : w_operand (ONum n) [KNum n]
| w_otrue : w_operand (OBool true) [KId "true"]
| w_ofalse : w_operand (OBool false) [KId "false"]
| w_onil : w_operand ONil [KId "nil"]
| w_oparen p ts : w_pipeline p ts → w_operand (OParen p) (KLeft :: ts ++ [KRight])
with w_command : list operand → list tok → Prop :=
| w_cmd_one o ts : w_operand o ts → w_command [o] ts
| w_cmd_more o ts sp cmd ts' : w_operand o ts → sp ≠ [] → spaces sp → w_command cmd ts' → w_command (o :: cmd) (ts ++ sp ++ ts')
with w_pipeline : pipe → list tok → Prop :=
| w_pipe_one sp1 cmd ts sp2 : spaces sp1 → spaces sp2 → w_command cmd ts → w_pipeline [cmd] (sp1 ++ ts ++ sp2)
| w_pipe_more sp1 cmd ts sp2 cmd' p ts' : spaces sp1 → spaces sp2 → w_command cmd ts → w_pipeline (cmd' :: p) ts' → takes_value cmd' →
    w_pipeline (cmd :: cmd' :: p) (sp1 ++ ts ++ sp2 ++ KPipe :: ts').

(** ** Texts, actions, control structures *)

(** The variables of a range. *)
Inductive w_vars : list string → list tok → Prop :=
| w_vars_none : w_vars [] []
| w_vars_one sp1 v sp2 : spaces sp1 → spaces sp2 → w_vars [v] (sp1 ++ KVar v :: sp2 ++ [KDecl])
| w_vars_two sp1 v sp2 sp3 w sp4 : spaces sp1 → spaces sp2 → spaces sp3 → spaces sp4 →
    w_vars [v; w] (sp1 ++ KVar v :: sp2 ++ KComma :: sp3 ++ KVar w :: sp4 ++ [KDecl]).
(** An action that is only a keyword. *)
Definition only (w : string) (ts : list tok) : Prop := ∃ sp1 sp2, spaces sp1 ∧ spaces sp2 ∧ ts = sp1 ++ KId w :: sp2.

Inductive w_node : node → list item → Prop :=
| w_text s : w_node (NText s) [IText s]
| w_act p ts : w_pipeline p ts → w_node (NAct XRaw p) [IAct ts]
| w_let sp1 v sp2 p ts : spaces sp1 → spaces sp2 → w_pipeline p ts → w_node (NDecl v p) [IAct (sp1 ++ KVar v :: sp2 ++ KDecl :: ts)]
| w_if sp p ts t e is : spaces sp → w_pipeline p ts → w_branches t e is → w_node (NIf p t e) (IAct (sp ++ KId "if" :: ts) :: is)
| w_with sp p ts t e is : spaces sp → w_pipeline p ts → w_branches t e is → w_node (NWith p t e) (IAct (sp ++ KId "with" :: ts) :: is)
| w_range sp vs tv p ts t e is : spaces sp → w_vars vs tv → w_pipeline p ts → w_branches t e is →
    w_node (NRange vs p t e) (IAct (sp ++ KId "range" :: tv ++ ts) :: is)
| w_call sp1 sp2 sp3 n : spaces sp1 → spaces sp2 → spaces sp3 → w_node (NCall n None) [IAct (sp1 ++ KId "template" :: sp2 ++ KStr n :: sp3)]
| w_call_with sp1 sp2 n p ts : spaces sp1 → spaces sp2 → w_pipeline p ts →
    w_node (NCall n (Some p)) [IAct (sp1 ++ KId "template" :: sp2 ++ KStr n :: ts)]
with w_nodes : list node → list item → Prop :=
| w_nodes_nil : w_nodes [] []
| w_nodes_cons x is ns is' : w_node x is → w_nodes ns is' → w_nodes (x :: ns) (is ++ is')
with w_branches : list node → list node → list item → Prop :=
| w_no_else t is ts : w_nodes t is → only "end" ts → w_branches t [] (is ++ [IAct ts])
| w_else t is ts e is' ts' : w_nodes t is → only "else" ts → w_nodes e is' → only "end" ts' →
    w_branches t e (is ++ IAct ts :: is' ++ [IAct ts']).

(** A file: nodes and, between them, definitions of other templates. *)
Inductive w_file : list node → list (string * list node) → list item → Prop :=
| w_file_nil : w_file [] [] []
| w_file_node x is ns ds is' : w_node x is → w_file ns ds is' → w_file (x :: ns) ds (is ++ is')
| w_file_def sp1 sp2 n sp3 t is ts ns ds is' : spaces sp1 → spaces sp2 → spaces sp3 → w_nodes t is → only "end" ts → w_file ns ds is' →
    w_file ns ((n, t) :: ds) (IAct (sp1 ++ KId "define" :: sp2 ++ KStr n :: sp3) :: is ++ IAct ts :: is').

(** ** From texts to tokens *)

(** [u] is [t] without its blanks on the left (if [l]) and on the right (if [r]). *)
Definition cut (l r : bool) (t u : string) : Prop :=
  ∃ a z, t = a +:+ u +:+ z ∧
    (if l then blanks a ∧ (match u with String c _ => ¬ blank c | "" => True end) else a = "") ∧
    (if r then blanks z ∧ (∀ v c, u = v +:+ String c "" → ¬ blank c) else z = "").
Definition text_item (u : string) : list item := match u with "" => [] | _ => [IText u] end.
(** No action begins in [s]. *)
Definition no_action (s : string) : Prop := ∀ a z, s ≠ a +:+ "{{" +:+ z.

Inductive w_delim : bool → string → Prop :=
| w_close : w_delim false "}}"
| w_close_trim c : blank c → w_delim true (String c "-}}").

(** [l]: blanks are cut off on the left, because of a delimiter before. *)
Inductive w_source : bool → string → list item → Prop :=
| w_last l t u : no_action t → cut l false t u → w_source l t (text_item u)
| w_action l t u a ts r d s is : no_action (t +:+ "{") → cut l false t u → tokens ts a → w_delim r d → w_source r s is →
    w_source l (t +:+ "{{" +:+ a +:+ d +:+ s) (text_item u ++ IAct ts :: is)
| w_action_trim l t u c a ts r d s is : no_action (t +:+ "{") → cut l true t u → blank c → tokens (KSpace :: ts) (String c a) → w_delim r d → w_source r s is →
    w_source l (t +:+ "{{-" +:+ String c a +:+ d +:+ s) (text_item u ++ IAct (KSpace :: ts) :: is).

(** [s] is the text of a file with body [ns] and definitions [ds]. *)
Definition template_text (ns : list node) (ds : list (string * list node)) (s : string) : Prop :=
  ∃ is, w_source false s is ∧ w_file ns ds is.

Scheme w_operand_mut := Minimality for w_operand Sort Prop
with w_command_mut := Minimality for w_command Sort Prop
with w_pipeline_mut := Minimality for w_pipeline Sort Prop.
Combined Scheme w_pipeline_all from w_operand_mut, w_command_mut, w_pipeline_mut.
Scheme w_node_mut := Minimality for w_node Sort Prop
with w_nodes_mut := Minimality for w_nodes Sort Prop
with w_branches_mut := Minimality for w_branches Sort Prop.
Combined Scheme w_node_all from w_node_mut, w_nodes_mut, w_branches_mut.
