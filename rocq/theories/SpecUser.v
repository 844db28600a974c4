(** * SpecUser: what the builder does with texts supplied by user code, as rules. *)
From Verif Require Import Base Text Cmdline SpecCmdline.

Section User.
Context {W T : Type} (as_ref : W -> T -> W * option text).
(** [says w x s w']: asked for [x] in state [w], user code answers [s] and leaves [w']. *)
Definition says (w : W) (x : T) (s : text) (w' : W) : Prop := as_ref w x = (w', Some s).
Definition panics (w : W) (x : T) (w' : W) : Prop := as_ref w x = (w', None).

(** The values of [insert_multiple]: each is asked for twice.  The first answer is checked, the second is used. *)
Inductive verdict := Used (l : list text) | Refused (e : cerror) | Unwound.
Inductive values_go : W -> list T -> W -> verdict -> Prop :=
| vg_nil w : values_go w [] w (Used [])
| vg_panic w v r w1 : panics w v w1 -> values_go w (v :: r) w1 Unwound
| vg_bad w v r s w1 e : says w v s w1 -> value_error s e -> values_go w (v :: r) w1 (Refused e)
| vg_panic_again w v r s w1 w2 : says w v s w1 -> good_value s -> panics w1 v w2 -> values_go w (v :: r) w2 Unwound
| vg_more w v r s w1 t w2 w3 l : says w v s w1 -> good_value s -> says w1 v t w2 -> values_go w2 r w3 (Used l) ->
    values_go w (v :: r) w3 (Used (t :: l))
| vg_later w v r s w1 t w2 w3 x : says w v s w1 -> good_value s -> says w1 v t w2 -> values_go w2 r w3 x ->
    (forall l, x <> Used l) -> values_go w (v :: r) w3 x.

(** [insert_multiple]: in the end the one argument [key=used,...] is added as if by [insert_str], or nothing is. *)
Inductive multiple_goes (bld : build) (w : W) (c : cmdline) (key : T) (vals : list T)
  : W -> cmdline -> option (outcome cerror unit) -> Prop :=
| mg_panic w1 : panics w key w1 -> multiple_goes bld w c key vals w1 c None
| mg_key k w1 e : says w key k w1 -> key_error k e -> multiple_goes bld w c key vals w1 c (Some (Err e))
| mg_none k w1 : says w key k w1 -> good_key k -> vals = [] -> multiple_goes bld w c key vals w1 c (Some (Err (MissingVal k)))
| mg_unwound k w1 w2 : says w key k w1 -> good_key k -> vals <> [] -> values_go w1 vals w2 Unwound ->
    multiple_goes bld w c key vals w2 c None
| mg_value k w1 w2 e : says w key k w1 -> good_key k -> vals <> [] -> values_go w1 vals w2 (Refused e) ->
    multiple_goes bld w c key vals w2 c (Some (Err e))
| mg_add k w1 w2 l c' o : says w key k w1 -> good_key k -> vals <> [] -> values_go w1 vals w2 (Used l) ->
    run_op bld c (OpStr (k ++ txt "=" ++ comma_list l)) = (c', o) ->
    multiple_goes bld w c key vals w2 c' (Some o).
End User.
