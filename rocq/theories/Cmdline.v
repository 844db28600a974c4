(** * Cmdline: the kernel command line builder, src/cmdline/mod.rs. *)
From Verif Require Import Base Text.

(** src/cmdline/mod.rs:17. *)
Definition INIT_ARGS_SEPARATOR : text := txt " -- ".

(** src/cmdline/mod.rs:21-44. *)
Inductive cerror :=
| NullTerminator | NoBootArgsInserted | InvalidCapacity | InvalidAscii | HasSpace | HasEquals
| MissingVal (key : text) | MmioSize | TooLarge | NoQuoteSpace | InvalidQuote.

(** src/cmdline/mod.rs:79-81 ([' '..='~']). *)
Definition valid_char (c : char) : bool := (32 <=? c) && (c <=? 126).

(** src/cmdline/mod.rs:83-89. *)
Definition valid_str (s : text) : outcome cerror unit :=
  if forallb valid_char s then Ok tt else Err InvalidAscii.

(** src/cmdline/mod.rs:91-101. *)
Definition is_quoted (s : text) : bool :=
  if str_len s <? 2 then false
  else match s with
       | [] => false
       | first :: _ => (first =? 34) && (List.last s 0 =? 34)
       end.

(** src/cmdline/mod.rs:103-108. *)
Definition contains_double_quotes (s : text) : bool :=
  if str_len s <? 3 then false
  else existsb (N.eqb 34) (firstn (N.to_nat (str_len s - 2)) (skipn 1 s)).

(** src/cmdline/mod.rs:110-120. *)
Definition valid_key (s : text) : outcome cerror unit :=
  if negb (forallb valid_char s) then Err InvalidAscii
  else if contains s 32 then Err HasSpace
  else if contains s 61 then Err HasEquals
  else Ok tt.

(** src/cmdline/mod.rs:122-132. *)
Definition valid_value (s : text) : outcome cerror unit :=
  if negb (forallb valid_char s) then Err InvalidAscii
  else if contains_double_quotes s then Err InvalidQuote
  else if contains s 32 && negb (is_quoted s) then Err NoQuoteSpace
  else Ok tt.

(** src/cmdline/mod.rs:146-150. *)
Record cmdline := mkCmdline {
  boot_args : text;
  init_args : text;
  capacity : N
}.

(** src/cmdline/mod.rs:166-176. *)
Definition cmdline_new (cap : N) : outcome cerror cmdline :=
  if cap =? 0 then Err InvalidCapacity
  else Ok (mkCmdline [] [] cap).

(** src/cmdline/mod.rs:353-363, [get_null_terminated_representation_size]; its additions are
    unchecked. *)
Definition repr_size (bld : build) (c : cmdline) : outcome cerror N :=
  obind (uadd bld (str_len (boot_args c)) 1) (fun cmdline_size =>
  match init_args c with
  | [] => Ok cmdline_size
  | _ => obind (uadd bld (str_len INIT_ARGS_SEPARATOR) (str_len (init_args c))) (fun t =>
         uadd bld cmdline_size t)
  end).

(** [String::push] / [String::push_str] on the two fields. *)
(** src/cmdline/mod.rs:289, 292. *)
Definition push_boot (c : cmdline) (s : text) : cmdline :=
  mkCmdline (boot_args c ++ s) (init_args c) (capacity c).
(** src/cmdline/mod.rs:345, 348. *)
Definition push_init (c : cmdline) (s : text) : cmdline :=
  mkCmdline (boot_args c) (init_args c ++ s) (capacity c).

(** Called at src/cmdline/mod.rs:230, 276, 288, 329, 344, 358, 385-389, 539. *)
Definition is_empty (s : text) : bool := match s with [] => true | _ => false end.

(** Every builder method returns the builder as it is after the call and the result. *)
(** The methods of src/cmdline/mod.rs:194-452 take [&mut self] and return [Result<()>]. *)
Definition cres := (cmdline * outcome cerror unit)%type.

(** [expr?] in a method body: on error return, leaving the builder as it is now. *)
(** The [?] of src/cmdline/mod.rs:195-448. *)
Definition ctry {A} (c : cmdline) (x : outcome cerror A) (k : A -> cres) : cres :=
  match x with
  | Ok a => k a
  | Err e => (c, Err e)
  | Panic p => (c, Panic p)
  end.

(** src/cmdline/mod.rs:265-295. *)
Definition insert_str (bld : build) (c : cmdline) (slug : text) : cres :=
  let s := trim slug in
  ctry c (valid_str s) (fun _ =>
  ctry c (repr_size bld c) (fun size0 =>
  ctry c (if is_empty (boot_args c) then Ok size0 else ok_or (checked_add size0 1) TooLarge) (fun size1 =>
  ctry c (ok_or (checked_add size1 (str_len s)) TooLarge) (fun size2 =>
  if capacity c <? size2 then (c, Err TooLarge)
  else
    let c1 := if is_empty (boot_args c) then c else push_boot c [32] in
    (push_boot c1 s, Ok tt))))).

(** src/cmdline/mod.rs:317-351. *)
Definition insert_init_args (bld : build) (c : cmdline) (slug : text) : cres :=
  let s := trim slug in
  ctry c (valid_str s) (fun _ =>
  ctry c (repr_size bld c) (fun size0 =>
  ctry c (ok_or (checked_add size0 (if is_empty (init_args c) then str_len INIT_ARGS_SEPARATOR else 1))
            TooLarge) (fun size1 =>
  ctry c (ok_or (checked_add size1 (str_len s)) TooLarge) (fun size2 =>
  if capacity c <? size2 then (c, Err TooLarge)
  else
    let c1 := if is_empty (init_args c) then c else push_init c [32] in
    (push_init c1 s, Ok tt))))).

(** src/cmdline/mod.rs:194-204. *)
Definition insert (bld : build) (c : cmdline) (k v : text) : cres :=
  ctry c (valid_key k) (fun _ =>
  ctry c (valid_value v) (fun _ =>
  insert_str bld c (k ++ [61] ++ v))).

(** The iterator [vals.iter().map(valid_value..).collect::<Result<Vec<&str>>>()] of
    src/cmdline/mod.rs:237-243: stops at the first error. *)
Fixpoint collect_values (vals : list text) : outcome cerror (list text) :=
  match vals with
  | [] => Ok []
  | v :: r =>
      obind (valid_value v) (fun _ =>
      obind (collect_values r) (fun l => Ok (v :: l)))
  end.

(** src/cmdline/mod.rs:226-247. *)
Definition insert_multiple (bld : build) (c : cmdline) (k : text) (vals : list text) : cres :=
  ctry c (valid_key k) (fun _ =>
  match vals with
  | [] => (c, Err (MissingVal k))
  | _ =>
      ctry c (collect_values vals) (fun l =>
      insert_str bld c (k ++ [61] ++ join [44] l))
  end).

(** [CString::new]: fails on an interior NUL byte.  The result is the content without
    the terminator. *)
(** Called at src/cmdline/mod.rs:386, 390, 392. *)
Definition cstring_new (b : bytes) : outcome cerror bytes :=
  if existsb (fun x => n8 x =? 0) b then Err NullTerminator else Ok b.

(** [CString::into_bytes_with_nul] / [as_bytes_with_nul]. *)
(** Called at src/cmdline/mod.rs:567 and src/loader/mod.rs:234. *)
Definition bytes_with_nul (b : bytes) : bytes := b ++ [x00].

(** src/cmdline/mod.rs:384-398. *)
Definition as_cstring (c : cmdline) : outcome cerror bytes :=
  if is_empty (boot_args c) && is_empty (init_args c) then cstring_new (utf8 [])
  else if is_empty (boot_args c) then Err NoBootArgsInserted
  else if is_empty (init_args c) then cstring_new (utf8 (boot_args c))
  else cstring_new (utf8 (boot_args c ++ INIT_ARGS_SEPARATOR ++ init_args c)).

(** src/cmdline/mod.rs:561-569, [TryFrom<Cmdline> for Vec<u8>]. *)
Definition cmdline_to_vec (c : cmdline) : outcome cerror bytes :=
  obind (as_cstring c) (fun b => Ok (bytes_with_nul b)).

(** src/cmdline/mod.rs:455-470. *)
Definition guestusize_to_str (size : N) : text :=
  let KB_MULT := 1024 in
  let MB_MULT := KB_MULT * 1024 in
  let GB_MULT := MB_MULT * 1024 in
  if size mod GB_MULT =? 0 then fmt_dec (size / GB_MULT) ++ txt "G"
  else if size mod MB_MULT =? 0 then fmt_dec (size / MB_MULT) ++ txt "M"
  else if size mod KB_MULT =? 0 then fmt_dec (size / KB_MULT) ++ txt "K"
  else fmt_dec size.

(** src/cmdline/mod.rs:431-452. *)
Definition add_virtio_mmio_device (bld : build) (c : cmdline) (size baseaddr irq : N) (id : option N) : cres :=
  if size =? 0 then (c, Err MmioSize)
  else
    let device_str := txt "virtio_mmio.device=" ++ guestusize_to_str size ++ txt "@0x" ++
                      fmt_hex baseaddr ++ txt ":" ++ fmt_dec irq in
    let device_str' := match id with
                       | Some id => device_str ++ txt ":" ++ fmt_dec id
                       | None => device_str
                       end in
    insert_str bld c device_str'.

(** src/cmdline/mod.rs:472-474. *)
Definition check_outside_double_quotes (slug : text) : bool := count slug 34 mod 2 =? 0.

(** src/cmdline/mod.rs:515-531: split at the first separator occurrence outside quotes. *)
Definition split_cmdline (raw : text) : text * text :=
  match find (fun i => check_outside_double_quotes (firstn i raw))
             (match_indices raw INIT_ARGS_SEPARATOR) with
  | None => (raw, [])
  | Some i => (firstn i raw, skipn (i + List.length INIT_ARGS_SEPARATOR) raw)
  end.

(** src/cmdline/mod.rs:503-558. *)
Definition cmdline_try_from (raw : text) (cap : N) : outcome cerror cmdline :=
  if cap =? 0 then Err InvalidCapacity
  else
    let (boot0, init0) := split_cmdline raw in
    let boot := trim boot0 in
    let init := trim init0 in
    obind (ok_or (checked_add (str_len boot) 1) TooLarge) (fun size0 =>
    obind (match init with
           | [] => Ok size0
           | _ =>
               obind (ok_or (checked_add size0 (str_len INIT_ARGS_SEPARATOR)) TooLarge) (fun size1 =>
               ok_or (checked_add size1 (str_len init)) TooLarge)
           end) (fun size2 =>
    if cap <? size2 then Err InvalidCapacity
    else Ok (mkCmdline boot init cap))).

(** Equality of the error values ([#\[derive(PartialEq, Eq)\]], src/cmdline/mod.rs:20). *)
Definition text_eqb (a b : text) : bool :=
  if list_eq_dec N.eq_dec a b then true else false.

(** src/cmdline/mod.rs:20-44. *)
Definition cerror_eqb (a b : cerror) : bool :=
  match a, b with
  | NullTerminator, NullTerminator | NoBootArgsInserted, NoBootArgsInserted
  | InvalidCapacity, InvalidCapacity | InvalidAscii, InvalidAscii | HasSpace, HasSpace
  | HasEquals, HasEquals | MmioSize, MmioSize | TooLarge, TooLarge
  | NoQuoteSpace, NoQuoteSpace | InvalidQuote, InvalidQuote => true
  | MissingVal k, MissingVal k' => text_eqb k k'
  | _, _ => false
  end.

(** Under src/cmdline/mod.rs:571-575. *)
Definition bytes_eqb (a b : bytes) : bool :=
  if list_eq_dec Byte.byte_eq_dec a b then true else false.

(** src/cmdline/mod.rs:571-575: compares the two [Result<CString, Error>]. *)
Definition cmdline_eq (a b : cmdline) : bool :=
  match as_cstring a, as_cstring b with
  | Ok x, Ok y => bytes_eqb x y
  | Err e, Err e' => cerror_eqb e e'
  | _, _ => false
  end.

(** ** Histories: one constructor call followed by any builder calls. *)
(** The public builder calls of src/cmdline/mod.rs:194-452. *)
Inductive op :=
| OpInsert (k v : text)
| OpMultiple (k : text) (vs : list text)
| OpStr (s : text)
| OpInit (s : text)
| OpVirtio (size base irq : N) (id : option N).

(** The public builder calls of src/cmdline/mod.rs:194-452. *)
Definition run_op (bld : build) (c : cmdline) (o : op) : cres :=
  match o with
  | OpInsert k v => insert bld c k v
  | OpMultiple k vs => insert_multiple bld c k vs
  | OpStr s => insert_str bld c s
  | OpInit s => insert_init_args bld c s
  | OpVirtio size base irq id => add_virtio_mmio_device bld c size base irq id
  end.

(** The public builder calls of src/cmdline/mod.rs:194-452. *)
Definition run_ops (bld : build) (c : cmdline) (os : list op) : cmdline :=
  fold_left (fun c o => fst (run_op bld c o)) os c.

(** src/cmdline/mod.rs:166-176, 503-558. *)
Inductive ctor := New (cap : N) | Parse (raw : text) (cap : N).

(** src/cmdline/mod.rs:166-176, 503-558. *)
Definition run_ctor (k : ctor) : outcome cerror cmdline :=
  match k with
  | New cap => cmdline_new cap
  | Parse raw cap => cmdline_try_from raw cap
  end.
