(** * SpecHistory: the command line builder as rules.

    The builder as its documentation describes it: a pair of texts and a capacity.  [call_says]
    lists, for each builder call, every situation and what the call then returns and leaves
    behind.  No function of the model is used. *)
From Verif Require Import Base Text Cmdline SpecCmdline.

(** [call_says cap boot init o r boot' init']: with boot arguments [boot] and init arguments
    [init], the call [o] returns [r] and leaves [boot'] and [init']. *)
Inductive call_says (cap : N) (boot init : text) : op -> outcome cerror unit -> text -> text -> Prop :=
(* insert_str *)
| str_ascii s t : trimmed_of s t -> ~ Forall printable t ->
    call_says cap boot init (OpStr s) (Err InvalidAscii) boot init
| str_large s t : trimmed_of s t -> Forall printable t -> ~ fits (add_arg boot t) init cap ->
    call_says cap boot init (OpStr s) (Err TooLarge) boot init
| str_ok s t : trimmed_of s t -> Forall printable t -> fits (add_arg boot t) init cap ->
    call_says cap boot init (OpStr s) (Ok tt) (add_arg boot t) init
(* insert_init_args *)
| init_ascii s t : trimmed_of s t -> ~ Forall printable t ->
    call_says cap boot init (OpInit s) (Err InvalidAscii) boot init
| init_large s t : trimmed_of s t -> Forall printable t -> ~ fits_with_sep boot (add_arg init t) cap ->
    call_says cap boot init (OpInit s) (Err TooLarge) boot init
| init_ok s t : trimmed_of s t -> Forall printable t -> fits_with_sep boot (add_arg init t) cap ->
    call_says cap boot init (OpInit s) (Ok tt) boot (add_arg init t)
(* insert *)
| ins_key k v e : key_error k e -> call_says cap boot init (OpInsert k v) (Err e) boot init
| ins_value k v e : good_key k -> value_error v e -> call_says cap boot init (OpInsert k v) (Err e) boot init
| ins_large k v : good_key k -> good_value v -> ~ fits (add_arg boot (k ++ txt "=" ++ v)) init cap ->
    call_says cap boot init (OpInsert k v) (Err TooLarge) boot init
| ins_ok k v : good_key k -> good_value v -> fits (add_arg boot (k ++ txt "=" ++ v)) init cap ->
    call_says cap boot init (OpInsert k v) (Ok tt) (add_arg boot (k ++ txt "=" ++ v)) init
(* insert_multiple: the first bad value decides *)
| mul_key k vs e : key_error k e -> call_says cap boot init (OpMultiple k vs) (Err e) boot init
| mul_none k : good_key k -> call_says cap boot init (OpMultiple k []) (Err (MissingVal k)) boot init
| mul_value k pre v post e : good_key k -> Forall good_value pre -> value_error v e ->
    call_says cap boot init (OpMultiple k (pre ++ v :: post)) (Err e) boot init
| mul_large k vs : good_key k -> vs <> [] -> Forall good_value vs ->
    ~ fits (add_arg boot (k ++ txt "=" ++ comma_list vs)) init cap ->
    call_says cap boot init (OpMultiple k vs) (Err TooLarge) boot init
| mul_ok k vs : good_key k -> vs <> [] -> Forall good_value vs ->
    fits (add_arg boot (k ++ txt "=" ++ comma_list vs)) init cap ->
    call_says cap boot init (OpMultiple k vs) (Ok tt) (add_arg boot (k ++ txt "=" ++ comma_list vs)) init
(* add_virtio_mmio_device *)
| vio_size base irq id : call_says cap boot init (OpVirtio 0 base irq id) (Err MmioSize) boot init
| vio_large size base irq id t : size <> 0 -> device_argument size base irq id t ->
    ~ fits (add_arg boot t) init cap ->
    call_says cap boot init (OpVirtio size base irq id) (Err TooLarge) boot init
| vio_ok size base irq id t : size <> 0 -> device_argument size base irq id t ->
    fits (add_arg boot t) init cap ->
    call_says cap boot init (OpVirtio size base irq id) (Ok tt) (add_arg boot t) init.

(** A whole history of calls with all their results. *)
Inductive calls_say (cap : N) : text -> text -> list op -> list (outcome cerror unit) -> text -> text -> Prop :=
| say_nothing boot init : calls_say cap boot init [] [] boot init
| say_call boot init o os r rs boot1 init1 boot2 init2 :
    call_says cap boot init o r boot1 init1 -> calls_say cap boot1 init1 os rs boot2 init2 ->
    calls_say cap boot init (o :: os) (r :: rs) boot2 init2.

(** The constructors: the error, or the parts the builder starts with. *)
Inductive ctor_says : ctor -> outcome cerror (text * text) -> Prop :=
| new_zero : ctor_says (New 0) (Err InvalidCapacity)
| new_ok cap : cap <> 0 -> ctor_says (New cap) (Ok ([], []))
| parse_bad raw cap boot init : parsed_parts raw boot init -> cap = 0 \/ ~ fits boot init cap ->
    ctor_says (Parse raw cap) (Err InvalidCapacity)
| parse_ok raw cap boot init : parsed_parts raw boot init -> cap <> 0 -> fits boot init cap ->
    ctor_says (Parse raw cap) (Ok (boot, init)).

(** Everything a client sees of a history: the constructor's result; if that is a builder, the
    results of all calls, and the serialised command line at the end. *)
Inductive story :=
| NoBuilder (e : cerror)
| Built (results : list (outcome cerror unit)) (final : outcome cerror bytes).
Inductive history_says (k : ctor) (os : list op) : story -> Prop :=
| hist_refused e : ctor_says k (Err e) -> history_says k os (NoBuilder e)
| hist_built boot0 init0 rs boot init :
    ctor_says k (Ok (boot0, init0)) -> calls_say (ctor_cap k) boot0 init0 os rs boot init ->
    history_says k os (Built rs (serialised boot init)).
