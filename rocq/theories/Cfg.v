(** * Cfg: what of the crate exists, by target and features (the [#\[cfg(..)\]] attributes and Cargo.toml).

    Every item under a [cfg], and every use of one, is a line of a table below; names are looked up as rustc does it, through
    modules, [pub use] and globs.  Simplification: items without any [cfg] of their own inside a module are listed only when something
    refers to them or the documentation names them; [cfg(test)] code is left out. *)
From Coq Require Import List String Bool.
Import ListNotations.
Local Open Scope string_scope.
Local Open Scope list_scope.

(** ** Configurations *)
(** The language of the [cfg] attributes in src/lib.rs:111-150, src/loader/mod.rs:20-47, src/configurator/mod.rs:18-35 and below. *)
Inductive cfg := Target (arch : string) | Feature (f : string) | All (l : list cfg) | Any (l : list cfg) | Not (g : cfg).
(** What the compiler is told: [target_arch], and which features are on. *)
(** The language of the [cfg] attributes in src/lib.rs:111-150, src/loader/mod.rs:20-47, src/configurator/mod.rs:18-35 and below. *)
Record config := mkConfig { target_arch : string; feature_on : string -> bool }.
(** The language of the [cfg] attributes in src/lib.rs:111-150, src/loader/mod.rs:20-47, src/configurator/mod.rs:18-35 and below. *)
Fixpoint holds (c : config) (g : cfg) {struct g} : bool :=
  match g with
  | Target a => String.eqb (target_arch c) a
  | Feature f => feature_on c f
  | All l => forallb (holds c) l
  | Any l => existsb (holds c) l
  | Not g => negb (holds c g)
  end.

(** Cargo.toml:22-26, [\[features\]]: what each feature turns on besides itself. *)
Definition cargo_features : list (string * list string) :=
  [("default", ["pe"]); ("bzimage", ["elf"]); ("pe", ["elf"]); ("elf", [])].
(** cargo turns on what is requested, and goes on turning on what that needs (no chain is longer than the table). *)
(** cargo, on Cargo.toml:22-26. *)
Fixpoint turned_on (steps : nat) (requested : list string) (f : string) : bool :=
  match steps with
  | O => existsb (String.eqb f) requested
  | S n => turned_on n requested f ||
           existsb (fun e => turned_on n requested (fst e) && existsb (String.eqb f) (snd e)) cargo_features
  end.
(** cargo, on Cargo.toml:22-26. *)
Definition built_for (arch : string) (requested : list string) : config :=
  mkConfig arch (turned_on (List.length cargo_features) requested).

(** ** The tables *)
(** The modules, items and [pub use]s of src/; the comments in the table name the lines. *)
Definition path := list string.
(** The modules, items and [pub use]s of src/; the comments in the table name the lines. *)
Inductive entry :=
| Def (public : bool) (m : path) (n : string) (g : list cfg)          (* an item of module (or enumeration, structure, type) m *)
| Use (m : path) (n : string) (g : list cfg) (target : path)          (* pub use target (as n) *)
| Glob (m : path) (g : list cfg) (target : path).                     (* pub use target::* *)

(** The modules, items and [pub use]s of src/; the comments in the table name the lines. *)
Definition x86 : cfg := Any [Target "x86"; Target "x86_64"].
(** The modules, items and [pub use]s of src/; the comments in the table name the lines. *)
Definition arm_riscv : cfg := Any [Target "aarch64"; Target "riscv64"].

(** The modules, items and [pub use]s of src/; the comments in the table name the lines. *)
Definition crate : list entry :=
  [ (* src/lib.rs:124-133 *)
    Def true [] "cmdline" [];
    Def true [] "configurator" [Any [Feature "elf"; Feature "pe"; Feature "bzimage"]];      (* src/configurator/mod.rs:19 *)
    Def true [] "loader" [];
    Def false [] "loader_gen" [x86; x86];                                                   (* and src/loader_gen/mod.rs:12 *)
    Glob [] [x86] ["loader_gen"];
    (* src/cmdline/mod.rs *)
    Def true ["cmdline"] "Cmdline" []; Def true ["cmdline"] "Error" [];
    (* src/loader_gen/mod.rs:14-15, x86_64/mod.rs:12-26 *)
    Def false ["loader_gen"] "x86_64" [x86];
    Glob ["loader_gen"] [] ["loader_gen"; "x86_64"];
    Def true ["loader_gen"; "x86_64"] "bootparam" [];
    Def true ["loader_gen"; "x86_64"] "elf" [Feature "elf"];
    Def true ["loader_gen"; "x86_64"] "start_info" [Feature "elf"];
    (* bootparam.rs, elf.rs, start_info.rs *)
    Def true ["loader_gen"; "x86_64"; "bootparam"] "setup_header" []; Def true ["loader_gen"; "x86_64"; "bootparam"] "boot_params" [];
    Def true ["loader_gen"; "x86_64"; "elf"] "Elf64_Ehdr" []; Def true ["loader_gen"; "x86_64"; "elf"] "Elf64_Phdr" [];
    Def true ["loader_gen"; "x86_64"; "elf"] "Elf64_Nhdr" [];
    Def true ["loader_gen"; "x86_64"; "start_info"] "hvm_start_info" [];
    Def true ["loader_gen"; "x86_64"; "start_info"] "hvm_modlist_entry" [];
    Def true ["loader_gen"; "x86_64"; "start_info"] "hvm_memmap_table_entry" [];
    (* src/configurator/mod.rs:25-55, 96-146 *)
    Def false ["configurator"] "x86_64" [x86; x86];                                         (* and x86_64/mod.rs:14 *)
    Glob ["configurator"] [x86] ["configurator"; "x86_64"];
    Def true ["configurator"] "fdt" [arm_riscv];
    Def true ["configurator"] "Error" [];
    Def true ["configurator"; "Error"] "Linux" [x86]; Def true ["configurator"; "Error"] "Pvh" [x86];
    Def true ["configurator"; "Error"] "Fdt" [arm_riscv];
    Def true ["configurator"; "Error"] "MissingStartAddress" []; Def true ["configurator"; "Error"] "Overflow" [];
    Def true ["configurator"; "Error"] "InvalidAddress" [];
    Def true ["configurator"] "Result" []; Def true ["configurator"] "BootConfigurator" []; Def true ["configurator"] "BootParams" [];
    (* src/configurator/x86_64/mod.rs:16-17, linux.rs, pvh.rs:15 *)
    Def true ["configurator"; "x86_64"] "linux" [];
    Def true ["configurator"; "x86_64"] "pvh" [Any [Feature "elf"; Feature "bzimage"]];
    Def true ["configurator"; "x86_64"; "linux"] "Error" []; Def true ["configurator"; "x86_64"; "linux"] "LinuxBootConfigurator" [];
    Def true ["configurator"; "x86_64"; "pvh"] "Error" []; Def true ["configurator"; "x86_64"; "pvh"] "PvhBootConfigurator" [];
    (* src/configurator/fdt.rs *)
    Def true ["configurator"; "fdt"] "Error" []; Def true ["configurator"; "fdt"] "FdtBootConfigurator" [];
    (* src/loader/mod.rs:29-74, 79, 146-184, 222 *)
    Use ["loader"] "bootparam" [x86] ["loader_gen"; "bootparam"];
    Use ["loader"] "Cmdline" [] ["cmdline"; "Cmdline"];
    Def true ["loader"] "pe" [All [arm_riscv; Feature "pe"]];
    Glob ["loader"] [All [arm_riscv; Feature "pe"]] ["loader"; "pe"];
    Def true ["loader"] "elf" [All [x86; Feature "elf"]; All [Feature "elf"; x86]];              (* and elf/mod.rs:13 *)
    Glob ["loader"] [All [x86; Feature "elf"]] ["loader"; "elf"];
    Def true ["loader"] "bzimage" [All [x86; Feature "bzimage"]; All [Feature "bzimage"; x86]];  (* and bzimage/mod.rs:12 *)
    Glob ["loader"] [All [x86; Feature "bzimage"]] ["loader"; "bzimage"];
    Def true ["loader"] "Error" [];
    Def true ["loader"; "Error"] "Bzimage" [All [Feature "bzimage"; x86]];
    Def true ["loader"; "Error"] "Elf" [All [Feature "elf"; x86]];
    Def true ["loader"; "Error"] "Pe" [All [Feature "pe"; arm_riscv]];
    Def true ["loader"; "Error"] "InvalidCommandLine" []; Def true ["loader"; "Error"] "CommandLineCopy" [];
    Def true ["loader"; "Error"] "CommandLineOverflow" []; Def true ["loader"; "Error"] "InvalidKernelStartAddress" [];
    Def true ["loader"; "Error"] "MemoryOverflow" [];
    Def true ["loader"] "Result" []; Def true ["loader"] "KernelLoader" []; Def true ["loader"] "load_cmdline" [];
    Def true ["loader"] "KernelLoaderResult" [];
    Def true ["loader"; "KernelLoaderResult"] "kernel_load" []; Def true ["loader"; "KernelLoaderResult"] "kernel_end" [];
    Def true ["loader"; "KernelLoaderResult"] "setup_header" [x86];
    Def true ["loader"; "KernelLoaderResult"] "pvh_boot_cap" [All [Feature "elf"; x86]];
    (* src/loader/elf/mod.rs:26, 42, 112, 138; bzimage/mod.rs:27, 66 *)
    Use ["loader"; "elf"] "start_info" [] ["loader_gen"; "start_info"];
    Def true ["loader"; "elf"] "Error" []; Def true ["loader"; "elf"] "PvhBootCapability" []; Def true ["loader"; "elf"] "Elf" [];
    Def true ["loader"; "bzimage"] "Error" []; Def true ["loader"; "bzimage"] "BzImage" [];
    (* src/loader/pe/mod.rs:24, 28, 75-122, 217 *)
    Def true ["loader"; "pe"] "PE" []; Def true ["loader"; "pe"] "Error" [];
    Def true ["loader"; "pe"] "arm64_image_header" [Target "aarch64"];
    Def true ["loader"; "pe"] "riscv64_image_header" [Target "riscv64"];
    Def true ["loader"; "pe"] "load_dtb" [arm_riscv] ].

(** ** Uses: the module a line of code is in, the [cfg]s above it, and the items it needs. *)
(** The uses of names in src/; the comments in the table name the lines. *)
Record reference := mkRef { in_module : path; under : list cfg; needs : list path }.
(** The uses of names in src/; the comments in the table name the lines. *)
Definition code : list reference :=
  [ (* src/lib.rs:133 *)
    mkRef [] [x86] [["loader_gen"]];
    (* src/loader/mod.rs:30-47, 51-74, 120-162, 186-194, 222-250 *)
    mkRef ["loader"] [x86] [["loader_gen"; "bootparam"]]; mkRef ["loader"] [] [["cmdline"; "Cmdline"]];
    mkRef ["loader"] [All [arm_riscv; Feature "pe"]] [["loader"; "pe"]];
    mkRef ["loader"] [All [x86; Feature "elf"]] [["loader"; "elf"]];
    mkRef ["loader"] [All [x86; Feature "bzimage"]] [["loader"; "bzimage"]];
    mkRef ["loader"; "Error"] [All [Feature "bzimage"; x86]] [["loader"; "bzimage"; "Error"]; ["loader"; "Error"; "Bzimage"]];
    mkRef ["loader"; "Error"] [All [Feature "elf"; x86]] [["loader"; "elf"; "Error"]; ["loader"; "Error"; "Elf"]];
    mkRef ["loader"; "Error"] [All [Feature "pe"; arm_riscv]] [["loader"; "pe"; "Error"]; ["loader"; "Error"; "Pe"]];
    mkRef ["loader"] [x86] [["loader"; "bootparam"; "setup_header"]; ["loader"; "bootparam"; "boot_params"]];
    mkRef ["loader"] [All [Feature "elf"; x86]] [["loader"; "elf"; "PvhBootCapability"]];
    mkRef ["loader"; "load_cmdline"] [] [["loader"; "Cmdline"]; ["loader"; "Result"]; ["loader"; "Error"; "InvalidCommandLine"];
      ["loader"; "Error"; "CommandLineOverflow"]; ["loader"; "Error"; "CommandLineCopy"]];
    (* src/loader/elf/mod.rs:24-38, 203-300 *)
    mkRef ["loader"; "elf"] [] [["loader"; "Error"]; ["loader"; "KernelLoader"]; ["loader"; "KernelLoaderResult"]; ["loader"; "Result"];
      ["loader_gen"; "elf"; "Elf64_Ehdr"]; ["loader_gen"; "elf"; "Elf64_Phdr"]; ["loader_gen"; "elf"; "Elf64_Nhdr"];
      ["loader_gen"; "start_info"]; ["loader"; "Error"; "Elf"]; ["loader"; "Error"; "MemoryOverflow"];
      ["loader"; "KernelLoaderResult"; "kernel_load"]; ["loader"; "KernelLoaderResult"; "kernel_end"];
      ["loader"; "KernelLoaderResult"; "pvh_boot_cap"]];
    (* src/loader/bzimage/mod.rs:21-23, 103-184 *)
    mkRef ["loader"; "bzimage"] [] [["loader"; "bootparam"; "setup_header"]; ["loader"; "Error"]; ["loader"; "KernelLoader"];
      ["loader"; "KernelLoaderResult"; "setup_header"]; ["loader"; "KernelLoaderResult"; "kernel_load"];
      ["loader"; "KernelLoaderResult"; "kernel_end"]; ["loader"; "Result"]; ["loader"; "Error"; "Bzimage"];
      ["loader"; "Error"; "InvalidKernelStartAddress"]; ["loader"; "Error"; "MemoryOverflow"]];
    (* src/loader/pe/mod.rs:21, 136-208, 217-236 *)
    mkRef ["loader"; "pe"] [] [["loader"; "Error"]; ["loader"; "KernelLoader"]; ["loader"; "KernelLoaderResult"; "kernel_load"];
      ["loader"; "KernelLoaderResult"; "kernel_end"]; ["loader"; "Result"]; ["loader"; "Error"; "Pe"]; ["loader"; "Error"; "MemoryOverflow"]];
    mkRef ["loader"; "pe"; "PE"] [Target "aarch64"] [["loader"; "pe"; "arm64_image_header"]];
    mkRef ["loader"; "pe"; "PE"] [Target "riscv64"] [["loader"; "pe"; "riscv64_image_header"]];
    (* src/configurator/mod.rs:28, 38-55, 109-126 *)
    mkRef ["configurator"] [x86] [["configurator"; "x86_64"]];
    mkRef ["configurator"; "Error"] [x86] [["configurator"; "linux"; "Error"]; ["configurator"; "pvh"; "Error"]];
    mkRef ["configurator"; "Error"] [arm_riscv] [["configurator"; "fdt"; "Error"]];
    mkRef ["configurator"] [] [["configurator"; "Result"]; ["configurator"; "BootParams"]; ["configurator"; "Error"; "MissingStartAddress"];
      ["configurator"; "Error"; "Overflow"]; ["configurator"; "Error"; "InvalidAddress"]];
    (* src/configurator/x86_64/linux.rs:17, 47-51; pvh.rs:19-20, 72-88; fdt.rs:11, 36-40 *)
    mkRef ["configurator"; "x86_64"; "linux"] [] [["configurator"; "BootConfigurator"]; ["configurator"; "BootParams"]; ["configurator"; "Error"];
      ["configurator"; "Result"]; ["configurator"; "Error"; "Linux"]];
    mkRef ["configurator"; "x86_64"; "pvh"] [] [["configurator"; "BootConfigurator"]; ["configurator"; "BootParams"]; ["configurator"; "Error"];
      ["configurator"; "Result"]; ["configurator"; "Error"; "Pvh"]; ["loader_gen"; "start_info"; "hvm_start_info"];
      ["loader_gen"; "start_info"; "hvm_memmap_table_entry"]; ["loader_gen"; "start_info"; "hvm_modlist_entry"]];
    mkRef ["configurator"; "fdt"] [] [["configurator"; "BootConfigurator"]; ["configurator"; "BootParams"]; ["configurator"; "Error"];
      ["configurator"; "Result"]; ["configurator"; "Error"; "Fdt"]] ].
(** Alternatives of which exactly one must be compiled in: src/loader/pe/mod.rs:149-152 and 169-176, where a variable gets its
    value under one or the other [cfg] (169: of [text_offset]); 160-167, the magic number. *)
Definition alternatives : list (path * list cfg) := [(["loader"; "pe"; "PE"], [Target "aarch64"; Target "riscv64"])].
(** [match] arms over the two enumerations with [cfg]s: src/loader/mod.rs:84-97, 103-115; src/configurator/mod.rs:60-74, 82-93. *)
Definition arms : list (path * list (string * list cfg)) :=
  let loader_arms := [("Bzimage", [All [Feature "bzimage"; x86]]); ("Elf", [All [Feature "elf"; x86]]); ("Pe", [All [Feature "pe"; arm_riscv]]);
      ("InvalidCommandLine", []); ("CommandLineCopy", []); ("CommandLineOverflow", []); ("InvalidKernelStartAddress", []);
      ("MemoryOverflow", [])] in
  let boot_arms := [("Linux", [x86]); ("Pvh", [x86]); ("Fdt", [arm_riscv]); ("MissingStartAddress", []); ("Overflow", []); ("InvalidAddress", [])] in
  [(["loader"; "Error"], loader_arms); (["loader"; "Error"], loader_arms);
   (["configurator"; "Error"], boot_arms); (["configurator"; "Error"], boot_arms)].

(** ** Programs outside of the crate: the benchmarks and the example on the front page. *)
(** benches/main.rs, benches/fdt.rs, benches/x86_64/mod.rs, src/lib.rs:15-105. *)
Definition any_feature : cfg := Any [Feature "elf"; Feature "pe"; Feature "bzimage"].
(** benches/main.rs, benches/fdt.rs, benches/x86_64/mod.rs, src/lib.rs:15-105. *)
Definition users : list reference :=
  [ (* benches/main.rs:14-23 and benches/x86_64/mod.rs:9-30 *)
    mkRef ["benches"; "x86_64"] [All [x86; any_feature]; x86; any_feature]
      [["configurator"; "pvh"; "PvhBootConfigurator"]; ["configurator"; "BootConfigurator"]; ["configurator"; "BootParams"];
       ["loader"; "elf"; "start_info"; "hvm_memmap_table_entry"]; ["loader"; "elf"; "start_info"; "hvm_start_info"];
       ["loader"; "elf"; "Elf"]; ["loader"; "KernelLoader"]];
    mkRef ["benches"; "x86_64"] [All [x86; any_feature]; x86; any_feature; Feature "bzimage"] [["loader"; "bzimage"; "BzImage"]];
    (* benches/main.rs:25-34 and benches/fdt.rs:9-20 *)
    mkRef ["benches"; "fdt"] [All [arm_riscv; any_feature]; any_feature]
      [["configurator"; "fdt"; "FdtBootConfigurator"]; ["configurator"; "BootConfigurator"]; ["configurator"; "BootParams"]];
    (* src/lib.rs:37-46, 54 *)
    mkRef ["front page"] [All [x86; any_feature]]
      [["configurator"; "BootConfigurator"]; ["configurator"; "BootParams"]; ["configurator"; "pvh"; "PvhBootConfigurator"];
       ["loader"; "elf"; "start_info"; "hvm_memmap_table_entry"]; ["loader"; "elf"; "start_info"; "hvm_start_info"]; ["loader"; "elf"; "Elf"]];
    mkRef ["front page"] [] [["loader"; "KernelLoader"]] ].
(** What each of these programs runs, and the [cfg]s above each definition of it: [criterion_benchmark], benches/main.rs:14-38;
    [main], src/lib.rs:79-119. *)
Definition main_functions : list (string * list cfg) :=
  [("benches", [All [x86; any_feature]; All [arm_riscv; any_feature]; Not any_feature]);
   ("front page", [All [x86; any_feature]; All [arm_riscv; any_feature]; Not any_feature])].

(** ** Looking a name up *)
(** rustc, resolving the names of src/. *)
Definition on (c : config) (g : list cfg) : bool := forallb (holds c) g.
(** rustc, resolving the names of src/. *)
Fixpoint same_path (p q : path) : bool :=
  match p, q with
  | [], [] => true
  | a :: p', b :: q' => String.eqb a b && same_path p' q'
  | _, _ => false
  end.
(** A path is followed from module to module, as [step] says what a name in a module stands for. *)
(** rustc, resolving the names of src/. *)
Fixpoint walk (step : path -> string -> list path) (m p : path) : list path :=
  match p with [] => [m] | n :: r => flat_map (fun q => walk step q r) (step m n) end.
(** All items the name n in module m can stand for, to code that sees everything or, with [public_only], to a user of the module;
    explicit names go before globs.  An alias leads through at most as many others as there are. *)
(** rustc, resolving the names of src/. *)
Fixpoint step (fuel : nat) (c : config) (public_only : bool) (m : path) (n : string) {struct fuel} : list path :=
  match fuel with
  | O => []
  | S f =>
      match flat_map (fun e => match e with
                               | Def pub m' n' g =>
                                   if same_path m m' && String.eqb n n' && (pub || negb public_only) && on c g then [m ++ [n]] else []
                               | Use m' n' g t => if same_path m m' && String.eqb n n' && on c g then walk (step f c false) [] t else []
                               | Glob _ _ _ => [] end) crate with
      | [] => flat_map (fun e => match e with
                                 | Glob m' g t =>
                                     if same_path m m' && on c g then flat_map (fun t' => step f c true t' n) (walk (step f c false) [] t) else []
                                 | _ => [] end) crate
      | l => l
      end
  end.
(** rustc, resolving the names of src/. *)
Definition inside (c : config) (p : path) : list path := walk (step (List.length crate) c false) [] p.
(** rustc, resolving the names of src/. *)
Definition outside (c : config) (p : path) : list path := walk (step (List.length crate) c true) [] p.
