(** * Pretty: what [{:#?}] prints, line by line ([#\[derive(Debug)\]] and std's [DebugStruct], [DebugTuple], [DebugList]).

    The crate derives [Debug]; what the derived code does with a formatter is the same for [{:?}] and [{:#?}]: it names a variant
    or structure and hands over its fields.  [shape] is what is handed over, [one_line] and [many_lines] what std prints. *)
From Verif Require Import Base Layout Text Cmdline Loader BootParams DebugText.
Local Open Scope list_scope.

(** std, under the derived [Debug] of src/loader/mod.rs:49, 146, src/configurator/mod.rs:37, src/cmdline/mod.rs:20, 145 and the generated structures. *)
Inductive shape :=
| Word (w : text)                                     (* a number, a string, a variant without fields *)
| Call (name : text) (args : list shape)              (* a tuple structure or variant *)
| Rec (name : text) (fields : list (text * shape))    (* a structure *)
| Seq (items : list shape).                           (* an array or a list *)

(** std: core::fmt::builders, [{:?}]. *)
(** std, under the derived [Debug] of src/loader/mod.rs:49, 146, src/configurator/mod.rs:37, src/cmdline/mod.rs:20, 145 and the generated structures. *)
Fixpoint one_line (s : shape) {struct s} : text :=
  match s with
  | Word w => w
  | Call n args => n ++ txt "(" ++ join (txt ", ") (map one_line args) ++ txt ")"
  | Rec n fields =>
      n ++ txt " { " ++
      join (txt ", ") ((fix go (fs : list (text * shape)) : list text :=
                          match fs with [] => [] | (f, v) :: r => (f ++ txt ": " ++ one_line v) :: go r end) fields) ++ txt " }"
  | Seq items => txt "[" ++ join (txt ", ") (map one_line items) ++ txt "]"
  end.
(** std: core::fmt::builders::PadAdapter: four spaces at the beginning of every line. *)
(** std, under the derived [Debug] of src/loader/mod.rs:49, 146, src/configurator/mod.rs:37, src/cmdline/mod.rs:20, 145 and the generated structures. *)
Definition pad (s : text) : text := flat_map (fun c => if c =? 10 then [10; 32; 32; 32; 32] else [c]) s.
(** std, under the derived [Debug] of src/loader/mod.rs:49, 146, src/configurator/mod.rs:37, src/cmdline/mod.rs:20, 145 and the generated structures. *)
Definition entry (s : text) : text := [32; 32; 32; 32] ++ pad s ++ [44; 10].
(** std: core::fmt::builders, [{:#?}]. *)
(** std, under the derived [Debug] of src/loader/mod.rs:49, 146, src/configurator/mod.rs:37, src/cmdline/mod.rs:20, 145 and the generated structures. *)
Fixpoint many_lines (s : shape) {struct s} : text :=
  match s with
  | Word w => w
  | Call n args => n ++ txt "(" ++ [10] ++ flat_map (fun a => entry (many_lines a)) args ++ txt ")"
  | Rec n fields =>
      n ++ txt " {" ++ [10] ++
      (fix go (fs : list (text * shape)) : text :=
         match fs with [] => [] | (f, v) :: r => entry (f ++ txt ": " ++ many_lines v) ++ go r end) fields ++ txt "}"
  | Seq [] => txt "[]"
  | Seq items => txt "[" ++ [10] ++ flat_map (fun a => entry (many_lines a)) items ++ txt "]"
  end.

(** src/cmdline/mod.rs:20-44, 145-150. *)
Definition shape_cerror (pr : char -> bool) (e : cerror) : shape :=
  match e with MissingVal k => Call (txt "MissingVal") [Word (debug_str pr k)] | e => Word (debug_cerror pr e) end.
(** src/cmdline/mod.rs:145-150. *)
Definition shape_cmdline (pr : char -> bool) (c : cmdline) : shape :=
  Rec (txt "Cmdline") [(txt "boot_args", Word (debug_str pr (boot_args c))); (txt "init_args", Word (debug_str pr (init_args c)));
                       (txt "capacity", Word (fmt_dec (capacity c)))].
(** src/loader/mod.rs:49-74 and the three loaders' errors. *)
Definition shape_lerror (e : lerror) : shape :=
  match e with
  | LBz e => Call (txt "Bzimage") [Word (debug_bz_error e)]
  | LElf e => Call (txt "Elf") [Word (debug_elf_error e)]
  | LPe e => Call (txt "Pe") [Word (debug_pe_error e)]
  | e => Word (debug_lerror e)
  end.
(** src/configurator/mod.rs:37-55, x86_64/linux.rs:25-31, x86_64/pvh.rs:28-46, fdt.rs:14-20. *)
Definition shape_berror (e : berror) : shape :=
  match e with
  | BLinux ZeroPagePastRamEnd => Call (txt "Linux") [Word (txt "ZeroPagePastRamEnd")]
  | BLinux ZeroPageSetup => Call (txt "Linux") [Word (txt "ZeroPageSetup")]
  | BPvh MemmapTableAddressMissing => Call (txt "Pvh") [Word (txt "MemmapTableAddressMissing")]
  | BPvh MemmapTableMissing => Call (txt "Pvh") [Word (txt "MemmapTableMissing")]
  | BPvh MemmapTablePastRamEnd => Call (txt "Pvh") [Word (txt "MemmapTablePastRamEnd")]
  | BPvh MemmapTableSetup => Call (txt "Pvh") [Word (txt "MemmapTableSetup")]
  | BPvh StartInfoPastRamEnd => Call (txt "Pvh") [Word (txt "StartInfoPastRamEnd")]
  | BPvh StartInfoSetup => Call (txt "Pvh") [Word (txt "StartInfoSetup")]
  | BPvh ModulesAddressMissing => Call (txt "Pvh") [Word (txt "ModulesAddressMissing")]
  | BPvh ModulesSetup => Call (txt "Pvh") [Word (txt "ModulesSetup")]
  | BFdt FDTPastRamEnd => Call (txt "Fdt") [Word (txt "FDTPastRamEnd")]
  | BFdt WriteFDTToMemory => Call (txt "Fdt") [Word (txt "WriteFDTToMemory")]
  | e => Word (debug_berror e)
  end.
(** Structures of unsigned integers, arrays and structures, as in DebugText.v. *)
(** src/loader_gen/x86_64/bootparam.rs:107-352, start_info.rs:15-56. *)
Fixpoint shape_ty (names : string -> text) (nm : text) (t : ty) (bs : bytes) {struct t} : shape :=
  match t with
  | Arr n t' => Seq (map (fun i => shape_ty names nm t' (slice bs (i * size t') (size t'))) (map N.of_nat (seq 0 (N.to_nat n))))
  | Struct p fs =>
      Rec nm ((fix go (o : N) (fs : list (string * ty)) : list (text * shape) :=
                 match fs with
                 | [] => []
                 | (f, t') :: r =>
                     (txt f, shape_ty names (names f) t' (slice bs (place p o t') (size t'))) :: go (place p o t' + size t') r
                 end) 0 fs)
  | _ => Word (fmt_dec (le_dec bs))
  end.
(** src/loader/mod.rs:146-162, src/loader/elf/mod.rs:109-120; vm-memory's GuestAddress. *)
Definition shape_address (a : N) : shape := Call (txt "GuestAddress") [Word (fmt_dec a)].
(** src/loader/mod.rs:146-162. *)
Definition shape_result (r : load_result) : shape :=
  Rec (txt "KernelLoaderResult")
    [(txt "kernel_load", shape_address (kernel_load r)); (txt "kernel_end", Word (fmt_dec (kernel_end r)));
     (txt "setup_header", match result_header r with
                          | Some h => Call (txt "Some") [shape_ty field_type_name (txt "setup_header") setup_header h]
                          | None => Word (txt "None") end);
     (txt "pvh_boot_cap", match pvh_boot_cap r with
                          | PvhEntryPresent a => Call (txt "PvhEntryPresent") [shape_address a]
                          | c => Word (debug_pvh_cap c) end)].
