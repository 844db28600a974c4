(** * SpecLaws: what the laws of C95 talk about.

    Independent of the builder's implementation: which argument a valid call stands for, what it
    means that all calls of a sequence are accepted, and interleavings. *)
From Verif Require Import Base Text Cmdline SpecCmdline.

(** The boot argument a well-formed boot call stands for. *)
Inductive boot_slug : op -> text -> Prop :=
| bs_insert k v : good_key k -> good_value v -> boot_slug (OpInsert k v) (k ++ txt "=" ++ v)
| bs_multiple k vs : good_key k -> vs <> [] -> Forall good_value vs ->
    boot_slug (OpMultiple k vs) (k ++ txt "=" ++ comma_list vs)
| bs_str s t : trimmed_of s t -> Forall printable t -> boot_slug (OpStr s) t
| bs_virtio size base irq id t : size <> 0 -> device_argument size base irq id t ->
    boot_slug (OpVirtio size base irq id) t.
(** The init argument a well-formed init call stands for. *)
Inductive init_slug : op -> text -> Prop :=
| is_init s t : trimmed_of s t -> Forall printable t -> init_slug (OpInit s) t.

(** Every call of [os] returns Ok; [c'] is the builder afterwards. *)
Inductive all_ok (bld : build) : cmdline -> list op -> cmdline -> Prop :=
| ok_done c : all_ok bld c [] c
| ok_call c o os c1 c' : run_op bld c o = (c1, Ok tt) -> all_ok bld c1 os c' -> all_ok bld c (o :: os) c'.

(** [l] is an interleaving of [xs] and [ys]: each keeps its own order. *)
Inductive shuffle {T} : list T -> list T -> list T -> Prop :=
| sh_nil : shuffle [] [] []
| sh_left x xs ys l : shuffle xs ys l -> shuffle (x :: xs) ys (x :: l)
| sh_right y xs ys l : shuffle xs ys l -> shuffle xs (y :: ys) (y :: l).

(** An argument as it would be typed: printable, not blank, no space at either end. *)
Definition word (t : text) : Prop := t <> [] /\ trimmed_of t t /\ Forall printable t.
