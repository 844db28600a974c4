(** * Benches: the benchmark programs, benches/main.rs, benches/fdt.rs and benches/x86_64/mod.rs.

    criterion runs the body of a benchmark as often as it likes ([Bencher::iter]); [unwrap] ends the program at the first body that
    does not return [Ok].  Simplification: measuring time, [black_box], and fetching the bzImage from the network are left out (the image
    is an argument). *)
From Coq Require Import String.
From Verif Require Import Base Io Mem Layout Loader Elf BzImage BootParams Configurators SpecBoot SpecVmm Fixtures.
Local Open Scope string_scope.
Local Open Scope list_scope.
Local Open Scope N_scope.

(** [b.iter(|| { body.unwrap() })], with the number of times it is run: the memory, and whether the program is still alive. *)
(** benches/fdt.rs:47-54, benches/x86_64/mod.rs:98-139. *)
Definition is_ok (x : report) : bool := match x with Loaded (Ok _) | Done (Ok _) | Written (Ok _) => true | _ => false end.
(** benches/fdt.rs:47-54, benches/x86_64/mod.rs:98-139. *)
Fixpoint iter (bld : build) (be : backend) (times : nat) (body : task) (m : gmem) : gmem * bool :=
  match times with
  | O => (m, true)
  | S n => let (m', x) := perform bld be body m in if is_ok x then iter bld be n body m' else (m', false)
  end.
(** One benchmark after the other. *)
(** benches/main.rs, benches/x86_64/mod.rs:96-139. *)
Fixpoint bench_functions (bld : build) (be : backend) (l : list (nat * task)) (m : gmem) : gmem * bool :=
  match l with
  | [] => (m, true)
  | (n, body) :: l' => let (m', alive) := iter bld be n body m in if alive then bench_functions bld be l' m' else (m', false)
  end.

(** benches/fdt.rs:22-27, benches/x86_64/mod.rs:30-36. *)
Definition MEM_SIZE : N := 0x1000000.
(** benches/fdt.rs:22-23. *)
Definition FDT_MAX_SIZE : N := 0x20.
(** benches/fdt.rs:25-27, benches/x86_64/mod.rs:34-36. *)
Definition create_guest_memory : gmem := mkMem [mkRegion 0 MEM_SIZE] (fun _ => x00).
(** [Cursor::new(&image)]. *)
(** benches/x86_64/mod.rs:98-130. *)
Definition cursor (f : bytes) : reader := mkReader f 0 (2 ^ 64 - 1) (fun _ => 2 ^ 64) (fun _ _ => false) 0.

(** benches/fdt.rs:29-41. *)
Definition build_fdt_boot_params : boot_info := bp_new (zeros FDT_MAX_SIZE) (MEM_SIZE - FDT_MAX_SIZE - 1).
(** benches/fdt.rs:43-55. *)
Definition bench_fdt (bld : build) (be : backend) (n : nat) : gmem * bool :=
  bench_functions bld be [(n, WriteFdt build_fdt_boot_params)] create_guest_memory.

(** benches/x86_64/mod.rs:46-59. *)
Definition build_boot_params : bytes * list bytes :=
  let start_info := default_of hvm_start_info in
  let memmap_entry := set hvm_memmap_table_entry [Fld "reserved"] 0 (set hvm_memmap_table_entry [Fld "type_"] 1
    (set hvm_memmap_table_entry [Fld "size"] 0 (set hvm_memmap_table_entry [Fld "addr"] 0x7000 (zeros (size hvm_memmap_table_entry))))) in
  let start_info := set hvm_start_info [Fld "magic"] 0x336ec578 start_info in
  let start_info := set hvm_start_info [Fld "version"] 1 start_info in
  let start_info := set hvm_start_info [Fld "nr_modules"] 0 start_info in
  let start_info := set hvm_start_info [Fld "memmap_entries"] 0 start_info in
  (start_info, [memmap_entry]).
(** Lines 61-72. *)
Definition build_pvh_boot_params : boot_info :=
  let (start_info, memmap_entries) := build_boot_params in
  let start_info := set hvm_start_info [Fld "memmap_paddr"] 0x7000 start_info in
  set_sections (bp_new start_info 0x6000) memmap_entries 0x7000.
(** Lines 96-139; with the feature bzimage the third benchmark, for the image that was downloaded. *)
Definition bench_x86_64 (bld : build) (be : backend) (n1 n2 : nat) (bzimage : option (bytes * nat)) : gmem * bool :=
  bench_functions bld be
    ([(n1, LoadElf None None (cursor test_elfnote_bin)); (n2, WritePvh build_pvh_boot_params)] ++
     match bzimage with Some (f, n3) => [(n3, LoadBz None None (cursor f))] | None => [] end) create_guest_memory.
