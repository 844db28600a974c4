(** * ElfHelpers: accessors of symbol and relocation info words,
    src/loader_gen/x86_64/elf.rs:188-240.  Arguments are values of the Rust integer types. *)
From Verif Require Import Base.

(** elf.rs:188-196. *)
Definition ELF_ST_BIND (info : N) : N := N.shiftr info 4.
(** elf.rs:194-196. *)
Definition ELF_ST_TYPE (info : N) : N := N.land info 15.
(** elf.rs:198-216. *)
Definition ELF32_ST_BIND (info : N) : N := ELF_ST_BIND info.
(** elf.rs:204-206. *)
Definition ELF32_ST_TYPE (info : N) : N := ELF_ST_TYPE info.
(** elf.rs:209-211. *)
Definition ELF64_ST_BIND (info : N) : N := ELF_ST_BIND info.
(** elf.rs:214-216. *)
Definition ELF64_ST_TYPE (info : N) : N := ELF_ST_TYPE info.
(** elf.rs:222-230; [as u8] truncates. *)
Definition ELF32_R_SYM (info : N) : N := N.shiftr info 8.
(** elf.rs:228-230. *)
Definition ELF32_R_TYPE (info : N) : N := N.land info 255 mod 2 ^ 8.
(** elf.rs:232-240; [as u32] truncates. *)
Definition ELF64_R_SYM (info : N) : N := N.shiftr info 32 mod 2 ^ 32.
(** elf.rs:238-240. *)
Definition ELF64_R_TYPE (info : N) : N := N.land info 4294967295 mod 2 ^ 32.
