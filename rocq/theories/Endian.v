(** * Endian: the PE loader with the byte order of the host as a parameter, src/loader/pe/mod.rs.

    Pe.v reads header fields as little-endian numbers. In the code a field is a native integer of the host and goes through
    [from_le]; here both steps are spelt out. The x86 loaders only exist on little-endian hosts, and the rest of the crate
    handles bytes and addresses only. *)
From Verif Require Import Base Io Mem Layout Loader Pe.
Open Scope loader_scope.

Inductive endian := Little | Big.

(** The number a host sees in the bytes of an integer. *)
(** Under the [from_le] calls at src/loader/pe/mod.rs:161-185. *)
Fixpoint be_dec_acc (acc : N) (l : bytes) : N :=
  match l with [] => acc | b :: r => be_dec_acc (acc * 256 + n8 b) r end.
(** Under the [from_le] calls at src/loader/pe/mod.rs:161-185. *)
Definition native_dec (e : endian) (l : bytes) : N :=
  match e with Little => le_dec l | Big => be_dec_acc 0 l end.

(** [u32::swap_bytes] (k = 4), [u64::swap_bytes] (k = 8): byte i becomes byte k-1-i. *)
(** Under the [from_le] calls at src/loader/pe/mod.rs:161-185. *)
Fixpoint swap_bytes (k : nat) (v : N) : N :=
  match k with
  | O => 0
  | S k' => v mod 256 * 256 ^ N.of_nat k' + swap_bytes k' (v / 256)
  end.
(** [u32::from_le], [u64::from_le]. *)
(** Under the [from_le] calls at src/loader/pe/mod.rs:161-185. *)
Definition from_le (e : endian) (k : nat) (v : N) : N :=
  match e with Little => v | Big => swap_bytes k v end.

(** A field of the header as the struct has it after [read_exact(image_header.as_mut_slice())],
    src/loader/pe/mod.rs:75-120, 150-159. *)
Definition native_get (e : endian) (a : arch) (f : string) (h : bytes) : N :=
  match locate (image_header a) [Fld f] with
  | Some (o, t) => native_dec e (slice h o (size t))
  | None => 0
  end.

(** src/loader/pe/mod.rs:161-168. *)
Definition emagic_ok (e : endian) (a : arch) (h : bytes) : bool :=
  match a with
  | Aarch64 => from_le e 4 (native_get e a "magic" h) =? 0x644d5241
  | Riscv64 => from_le e 4 (native_get e a "magic2" h) =? 0x05435352
  end.

(** src/loader/pe/mod.rs:170-177. *)
Definition etext_offset (e : endian) (a : arch) (h : bytes) : N :=
  match a with
  | Aarch64 => if from_le e 8 (native_get e a "image_size" h) =? 0 then 0x80000
               else from_le e 8 (native_get e a "text_offset" h)
  | Riscv64 => from_le e 8 (native_get e a "text_offset" h)
  end.

(** src/loader/pe/mod.rs:136-207. *)
Definition epe_load (e : endian) (a : arch) (be : backend) (off highmem : option N) : L load_result :=
  kernel_size <- lio seek_end (LPe SeekImageEnd) ;;
  lio (fun r => seek_start r 0) (LPe SeekImageHeader) ;;;
  hdr <- lio (fun r => read_exact r (size (image_header a))) (LPe ReadImageHeader) ;;
  if negb (emagic_ok e a hdr) then lfail (LPe InvalidImageMagicNumber)
  else if match off with
          | Some k => negb (k mod 0x200000 =? 0)
          | None => false
          end then lfail (LPe InvalidBaseAddrAlignment)
  else
    mem_offset <- lpure (ok_or (checked_add (match off with Some k => k | None => 0 end)
                                            (etext_offset e a hdr)) (LPe InvalidImage)) ;;
    lio (fun r => seek_start r 0) (LPe SeekImageHeader) ;;;
    lcopy be mem_offset kernel_size (LPe PeReadKernelImage) ;;;
    kernel_end <- lpure (ok_or (checked_add mem_offset kernel_size) MemoryOverflow) ;;
    lret (mkResult mem_offset kernel_end None PvhEntryIgnored).
