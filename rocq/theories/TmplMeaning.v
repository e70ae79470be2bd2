(** What templates mean: the rules of the documentation of Go's text/template for
    pipelines, variables and actions. How fields are looked up, what functions give
    and how values are written are parameters. *)
From Coq Require Import Ascii String.
From stdpp Require Import base strings list.
From Verif Require Import GoBase Content Section Render Tmpl TmplExec.
Local Open Scope string_scope. Local Open Scope list_scope.

(** "The empty values are false, 0, any nil pointer or interface value, and any
    array, slice, map, or string of length zero." *)
Inductive empty : val → Prop :=
| e_false : empty (VBool false)
| e_zero : empty (VInt 0)
| e_nil : empty VNil
| e_list : empty (VList [])
| e_seq : empty (VCon (CSeq []))
| e_para : empty (VCon (CPara []))
| e_pre : empty (VCon (CPre []))
| e_defs : empty (VCon (CDefs []))
| e_str : empty (VStr "")
| e_html : empty (VHtml "")
| e_url : empty (VUrl "")
| e_string : empty (VCon (CString "")).

(** Lists and their elements. *)
Inductive element_list : val → list val → Prop :=
| el_list l : element_list (VList l) l
| el_seq l l' : Forall2 is_val l l' → element_list (VCon (CSeq l)) l'
| el_para l l' : Forall2 is_val l l' → element_list (VCon (CPara l)) l'
| el_pre l l' : Forall2 is_val l l' → element_list (VCon (CPre l)) l'
| el_defs l l' : Forall2 is_def l l' → element_list (VCon (CDefs l)) l'
with is_val : content → val → Prop :=
| iv_section i : is_val (CSection i) (VSec i)
| iv_other c : (∀ i, c ≠ CSection i) → is_val c (VCon c)
with is_def : content * content → val → Prop :=
| id_def s d : is_def (s, d) (VDef s d).

Section meaning.
  Context (field : val → string → list val → val → Prop).
  Context (func : string → list val → val → Prop).
  Context (written : place → val → string → Prop).
  Context (other : string → val → string → Prop).

  (** The variables in sight, the innermost first. *)
  Notation env := (list (string * val)).
  Inductive bound : env → string → val → Prop :=
  | b_here x v e : bound ((x, v) :: e) x v
  | b_further x v y w e : x ≠ y → bound e x v → bound ((y, w) :: e) x v.

  (** [.A.B.C] of a value: each is looked up in what the one before gives, and the
      last one gets the arguments. *)
  Inductive chain : val → list string → list val → val → Prop :=
  | ch_none v : chain v [] [] v
  | ch_last v f args w : field v f args w → chain v [f] args w
  | ch_step v f fs args w x : field v f [] w → fs ≠ [] → chain w fs args x → chain v (f :: fs) args x.

  Definition last_arg (o : option val) : list val := match o with Some v => [v] | None => [] end.

  Inductive v_operand (e : env) (dot : val) : operand → val → Prop :=
  | v_dot : v_operand e dot ODot dot
  | v_field fs v : chain dot fs [] v → v_operand e dot (OField fs) v
  | v_var x v fs w : bound e x v → chain v fs [] w → v_operand e dot (OVar x fs) w
  | v_func f v : func f [] v → v_operand e dot (OFunc f) v
  | v_str s : v_operand e dot (OStr s) (VStr s)
  | v_num n : v_operand e dot (ONum n) (VInt n)
  | v_bool b : v_operand e dot (OBool b) (VBool b)
  | v_nil : v_operand e dot ONil VNil
  | v_paren p v : v_pipe e dot None p v → v_operand e dot (OParen p) v
  with v_args (e : env) (dot : val) : list operand → list val → Prop :=
  | v_args_nil : v_args e dot [] []
  | v_args_cons o v l vs : v_operand e dot o v → v_args e dot l vs → v_args e dot (o :: l) (v :: vs)
  (** The first that is empty, or the last: [and]. *)
  with v_and (e : env) (dot : val) : list operand → val → Prop :=
  | v_and_last o v : v_operand e dot o v → v_and e dot [o] v
  | v_and_stop o l v : l ≠ [] → v_operand e dot o v → empty v → v_and e dot (o :: l) v
  | v_and_more o v l w : l ≠ [] → v_operand e dot o v → ¬ empty v → v_and e dot l w → v_and e dot (o :: l) w
  (** The first that is not empty, or the last: [or]. *)
  with v_or (e : env) (dot : val) : list operand → val → Prop :=
  | v_or_last o v : v_operand e dot o v → v_or e dot [o] v
  | v_or_stop o l v : l ≠ [] → v_operand e dot o v → ¬ empty v → v_or e dot (o :: l) v
  | v_or_more o v l w : l ≠ [] → v_operand e dot o v → empty v → v_or e dot l w → v_or e dot (o :: l) w
  (** A command, given the value of the command before it, which becomes the last
      argument. *)
  with v_command (e : env) (dot : val) : option val → list operand → val → Prop :=
  | vc_and l v : v_and e dot l v → v_command e dot None (OFunc "and" :: l) v
  | vc_or l v : v_or e dot l v → v_command e dot None (OFunc "or" :: l) v
  | vc_func f l vs before v : f ≠ "and" → f ≠ "or" → v_args e dot l vs → func f (vs ++ last_arg before) v → v_command e dot before (OFunc f :: l) v
  | vc_field fs l vs before v : v_args e dot l vs → chain dot fs (vs ++ last_arg before) v → v_command e dot before (OField fs :: l) v
  | vc_var x v fs l vs before w : bound e x v → v_args e dot l vs → chain v fs (vs ++ last_arg before) w → v_command e dot before (OVar x fs :: l) w
  | vc_value o v : (match o with ODot | OStr _ | ONum _ | OBool _ | OParen _ => True | _ => False end) →
      v_operand e dot o v → v_command e dot None [o] v
  with v_pipe (e : env) (dot : val) : option val → pipe → val → Prop :=
  | vp_last before c v : v_command e dot before c v → v_pipe e dot before [c] v
  | vp_more before c v p w : v_command e dot before c v → p ≠ [] → v_pipe e dot (Some v) p w → v_pipe e dot before (c :: p) w.

  (** The variables of a range (there are at most two), at an element and its index. *)
  Inductive ranged : list string → nat → val → env → env → Prop :=
  | r_none i x e : ranged [] i x e e
  | r_one v i x e : ranged [v] i x e ((v, x) :: e)
  | r_two v w r i x e : ranged (v :: w :: r) i x e ((w, x) :: (v, VInt i) :: e).

  Inductive n_gives : env → val → node → string → Prop :=
  | n_text e dot s : n_gives e dot (NText s) s
  | n_act e dot pl p v s : v_pipe e dot None p v → written pl v s → n_gives e dot (NAct pl p) s
  | n_if e dot p v t f s : v_pipe e dot None p v → ¬ empty v → n_list e dot t s → n_gives e dot (NIf p t f) s
  | n_if_else e dot p v t f s : v_pipe e dot None p v → empty v → n_list e dot f s → n_gives e dot (NIf p t f) s
  | n_with e dot p v t f s : v_pipe e dot None p v → ¬ empty v → n_list e v t s → n_gives e dot (NWith p t f) s
  | n_with_else e dot p v t f s : v_pipe e dot None p v → empty v → n_list e dot f s → n_gives e dot (NWith p t f) s
  | n_range e dot vs p v l t f s : v_pipe e dot None p v → element_list v l → l ≠ [] → n_each e vs t 0 l s → n_gives e dot (NRange vs p t f) s
  | n_range_else e dot vs p v t f s : v_pipe e dot None p v → element_list v [] → n_list e dot f s → n_gives e dot (NRange vs p t f) s
  | n_call e dot name s : other name VNil s → n_gives e dot (NCall name None) s
  | n_call_with e dot name p v s : v_pipe e dot None p v → other name v s → n_gives e dot (NCall name (Some p)) s
  (** A variable is in sight to the end of the list it is declared in. *)
  with n_list : env → val → list node → string → Prop :=
  | n_nil e dot : n_list e dot [] ""
  | n_let e dot x p v l s : v_pipe e dot None p v → n_list ((x, v) :: e) dot l s → n_list e dot (NDecl x p :: l) s
  | n_cons e dot x l s t : n_gives e dot x s → n_list e dot l t → n_list e dot (x :: l) (s +:+ t)
  with n_each : env → list string → list node → nat → list val → string → Prop :=
  | n_done e vs t i : n_each e vs t i [] ""
  | n_next e vs t i x e' s l s' : ranged vs i x e e' → n_list e' x t s → n_each e vs t (S i) l s' → n_each e vs t i (x :: l) (s +:+ s').

  (** A template: [$] and the dot are the data. *)
  Definition template_gives (t : list node) (data : val) (s : string) : Prop := n_list [("", data)] data t s.
End meaning.

Scheme v_operand_mut := Minimality for v_operand Sort Prop
with v_args_mut := Minimality for v_args Sort Prop
with v_and_mut := Minimality for v_and Sort Prop
with v_or_mut := Minimality for v_or Sort Prop
with v_command_mut := Minimality for v_command Sort Prop
with v_pipe_mut := Minimality for v_pipe Sort Prop.
Combined Scheme v_pipe_all from v_operand_mut, v_args_mut, v_and_mut, v_or_mut, v_command_mut, v_pipe_mut.
Scheme n_gives_mut := Minimality for n_gives Sort Prop
with n_list_mut := Minimality for n_list Sort Prop
with n_each_mut := Minimality for n_each Sort Prop.
Combined Scheme n_list_all from n_gives_mut, n_list_mut, n_each_mut.
