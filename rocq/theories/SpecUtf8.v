(** * SpecUtf8: well-formed UTF-8 as the Unicode standard defines it, and command line histories
    with strings given as bytes. *)
From Verif Require Import Base Text Cmdline SpecCmdline SpecHistory Utf8.

(** Unicode scalar values: code points that are not surrogates. *)
Definition scalar (c : N) : Prop := c < 0xd800 \/ 0xe000 <= c < 0x110000.

Definition in_range (b : byte) (lo hi : N) : Prop := lo <= n8 b <= hi.
(** The Unicode Standard, table 3-7: well-formed UTF-8 byte sequences, one character each... *)
Inductive utf8_unit : bytes -> Prop :=
| unit1 a : in_range a 0 0x7f -> utf8_unit [a]
| unit2 a b : in_range a 0xc2 0xdf -> in_range b 0x80 0xbf -> utf8_unit [a; b]
| unit3a a b c : in_range a 0xe0 0xe0 -> in_range b 0xa0 0xbf -> in_range c 0x80 0xbf -> utf8_unit [a; b; c]
| unit3b a b c : in_range a 0xe1 0xec -> in_range b 0x80 0xbf -> in_range c 0x80 0xbf -> utf8_unit [a; b; c]
| unit3c a b c : in_range a 0xed 0xed -> in_range b 0x80 0x9f -> in_range c 0x80 0xbf -> utf8_unit [a; b; c]
| unit3d a b c : in_range a 0xee 0xef -> in_range b 0x80 0xbf -> in_range c 0x80 0xbf -> utf8_unit [a; b; c]
| unit4a a b c d : in_range a 0xf0 0xf0 -> in_range b 0x90 0xbf -> in_range c 0x80 0xbf -> in_range d 0x80 0xbf -> utf8_unit [a; b; c; d]
| unit4b a b c d : in_range a 0xf1 0xf3 -> in_range b 0x80 0xbf -> in_range c 0x80 0xbf -> in_range d 0x80 0xbf -> utf8_unit [a; b; c; d]
| unit4c a b c d : in_range a 0xf4 0xf4 -> in_range b 0x80 0x8f -> in_range c 0x80 0xbf -> in_range d 0x80 0xbf -> utf8_unit [a; b; c; d].
(** ... and strings of them: what a Rust [str] may hold. *)
Inductive well_formed : bytes -> Prop :=
| wf_empty : well_formed []
| wf_char u s : utf8_unit u -> well_formed s -> well_formed (u ++ s).

(** ** Calls and histories on bytes *)
Inductive u_ctor := UNew (cap : N) | UParse (raw : bytes) (cap : N).
Definition u_ctor_run (bld : build) (k : u_ctor) : outcome u_error ucmdline :=
  match k with UNew cap => u_new cap | UParse raw cap => u_try_from bld raw cap end.
Fixpoint u_results (bld : build) (c : ucmdline) (os : list u_op) : list (outcome u_error unit) :=
  match os with
  | [] => []
  | o :: os' => snd (u_run bld c o) :: u_results bld (fst (u_run bld c o)) os'
  end.
Definition u_runs (bld : build) (c : ucmdline) (os : list u_op) : ucmdline :=
  fold_left (fun c o => fst (u_run bld c o)) os c.
(** The types of the arguments: [usize] capacities, and [str]s, which are well-formed UTF-8 of at
    most [isize::MAX] bytes. *)
Definition u_ctor_typed (k : u_ctor) : Prop :=
  match k with
  | UNew cap => cap < 2 ^ 64
  | UParse raw cap => cap < 2 ^ 64 /\ lenN raw < 2 ^ 63 /\ well_formed raw
  end.
Definition u_op_typed (o : u_op) : Prop :=
  match o with
  | UInsert k v => well_formed k /\ well_formed v
  | UMultiple k vs => well_formed k /\ Forall well_formed vs
  | UStr s | UInit s => well_formed s
  | UVirtio _ _ _ _ => True
  end.

(** What a client sees, with strings as bytes. *)
Inductive u_story :=
| UNoBuilder (e : u_error)
| UBuilt (results : list (outcome u_error unit)) (final : outcome u_error bytes).
Definition bytes_story (bld : build) (k : u_ctor) (os : list u_op) : option u_story :=
  match u_ctor_run bld k with
  | Err e => Some (UNoBuilder e)
  | Ok c0 => Some (UBuilt (u_results bld c0 os) (u_as_cstring (u_runs bld c0 os)))
  | Panic _ => None
  end.

(** The same calls and stories with characters for bytes. *)
Definition scalars (s : text) : Prop := Forall scalar s.
Definition enc_err (e : cerror) : u_error := match e with MissingVal k => NoVal (utf8 k) | _ => Plain e end.
Definition enc_out {T U} (f : T -> U) (o : outcome cerror T) : outcome u_error U :=
  match o with Ok x => Ok (f x) | Err e => Err (enc_err e) | Panic p => Panic p end.
Definition enc_op (o : op) : u_op :=
  match o with
  | OpInsert k v => UInsert (utf8 k) (utf8 v)
  | OpMultiple k vs => UMultiple (utf8 k) (map utf8 vs)
  | OpStr s => UStr (utf8 s)
  | OpInit s => UInit (utf8 s)
  | OpVirtio size base irq id => UVirtio size base irq id
  end.
Definition op_scalars (o : op) : Prop :=
  match o with
  | OpInsert k v => scalars k /\ scalars v
  | OpMultiple k vs => scalars k /\ Forall scalars vs
  | OpStr s | OpInit s => scalars s
  | OpVirtio _ _ _ _ => True
  end.
Definition enc_ctor (k : ctor) : u_ctor :=
  match k with New cap => UNew cap | Parse raw cap => UParse (utf8 raw) cap end.
Definition ctor_scalars (k : ctor) : Prop := match k with New _ => True | Parse raw _ => scalars raw end.
Definition enc_story (s : story) : u_story :=
  match s with
  | NoBuilder e => UNoBuilder (enc_err e)
  | Built rs f => UBuilt (map (enc_out (fun x => x)) rs) (enc_out (fun x => x) f)
  end.
