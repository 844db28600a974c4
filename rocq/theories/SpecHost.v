(** * SpecHost: the width of [usize] on the host, and when it cannot matter. *)
From Verif Require Import Base Io Mem SpecMem SpecFile Loader SpecElf Text Cmdline SpecCmdline BootParams SpecBoot SpecParams.

(** The number of values of [usize] on the hosts the x86 parts are compiled for. *)
Definition pointer_width (usz : N) : Prop := usz = 2 ^ 32 \/ usz = 2 ^ 64.

(** The numbers of the image the ELF loader puts into a [usize] fit. *)
Definition elf_fits (usz : N) (f : bytes) : Prop :=
  phoff_of f < usz /\ Forall (fun p => ph_filesz p < usz) (phdrs_of f).

(** How far into the note segment at [start] one can get by following the notes. *)
Inductive note_reach (f : bytes) (start filesz : N) : N -> Prop :=
| reach_start : note_reach f start filesz 0
| reach_next rs : note_reach f start filesz rs -> rs < filesz -> start + rs + 12 <= lenN f ->
    note_reach f start filesz
      (rs + 12 + pad4 (u32at f (start + rs)) + pad4 (u32at f (start + rs + 4))).

(** Following the notes of some PT_NOTE header leads beyond what a [usize] can count. *)
Definition notes_too_far (usz : N) (f : bytes) : Prop :=
  exists p x, In p (phdrs_of f) /\ is_note p = true /\
    note_reach f (ph_offset p) (ph_filesz p) x /\ usz <= x.

(** What the types guarantee on the host: capacities are [usize]s, and no value is longer than
    isize::MAX = usz / 2 - 1 bytes. *)
Definition host_ctor_typed (usz : N) (k : ctor) : Prop :=
  match k with
  | New cap => cap < usz
  | Parse raw cap => cap < usz /\ lenN (utf8 raw) < usz / 2
  end.
Definition host_sized (usz : N) (p : boot_info) : Prop :=
  forall w, lenN (contents (list_of w p)) < usz / 2 /\ (forall s, start_of w p = Some s -> s < 2 ^ 64).
Definition host_call_sized (usz : N) (c : bcall) : Prop :=
  match c with
  | BSet _ es a => lenN (concat es) < usz / 2 /\ a < 2 ^ 64
  | BAdd _ e addr => lenN e < usz / 2 /\ (forall a, addr = Some a -> a < 2 ^ 64)
  end.

(** Adding an element on a host, as rules.  They are those of SpecParams with isize::MAX for
    2^63, and with one thing a user would not expect: the distance of the element from the start
    of the list is taken modulo [usz]. *)
Section HostRules.
Context (usz : N).
Inductive host_add_says (v : bytes) (start : option N) (e : bytes) (addr : option N) : reply -> bytes -> option N -> Prop :=
| hadd_nowhere : start = None -> addr = None ->
    host_add_says v start e addr (Refused MissingStartAddress) v None
| hadd_overflow s : start_with start addr = Some s -> 2 ^ 64 <= s + lenN v ->
    host_add_says v start e addr (Refused BOverflow) v (Some s)
| hadd_before s a : start_with start addr = Some s -> s + lenN v < 2 ^ 64 -> addr = Some a -> a < s ->
    host_add_says v start e addr (Refused InvalidAddress) v (Some s)
| hadd_end s v' : start_with start addr = Some s -> s + lenN v < 2 ^ 64 -> addr = None ->
    lenN v + lenN e < usz / 2 -> v' = v ++ e ->
    host_add_says v start e addr (Added (s + lenN v)) v' (Some s)
| hadd_at s a v' : start_with start addr = Some s -> s + lenN v < 2 ^ 64 -> addr = Some a -> s <= a ->
    (a - s) mod usz + lenN e < usz / 2 -> placed v ((a - s) mod usz) e v' ->
    host_add_says v start e addr (Added a) v' (Some s)
| hadd_huge_end s : start_with start addr = Some s -> s + lenN v < 2 ^ 64 -> addr = None ->
    usz / 2 <= lenN v + lenN e -> host_add_says v start e addr Aborted v (Some s)
| hadd_huge_at s a : start_with start addr = Some s -> s + lenN v < 2 ^ 64 -> addr = Some a -> s <= a ->
    usz / 2 <= (a - s) mod usz + lenN e -> host_add_says v start e addr Aborted v (Some s).

Inductive host_bcall_says (p : boot_info) : bcall -> reply -> boot_info -> Prop :=
| hsays_set_sections es a :
    host_bcall_says p (BSet Sections es a) (Added a)
      (mkBoot (header p) (header_start p) (Some (concat es)) (Some a) (modules p) (modules_start p))
| hsays_set_modules es a :
    host_bcall_says p (BSet Modules es a) (Added a)
      (mkBoot (header p) (header_start p) (sections p) (sections_start p) (Some (concat es)) (Some a))
| hsays_add_section e addr r v s : host_add_says (contents (sections p)) (sections_start p) e addr r v s ->
    host_bcall_says p (BAdd Sections e addr) r
      (mkBoot (header p) (header_start p) (Some v) s (modules p) (modules_start p))
| hsays_add_module e addr r v s : host_add_says (contents (modules p)) (modules_start p) e addr r v s ->
    host_bcall_says p (BAdd Modules e addr) r
      (mkBoot (header p) (header_start p) (sections p) (sections_start p) (Some v) s).

Inductive host_bcalls_say (p : boot_info) : list bcall -> list reply -> option boot_info -> Prop :=
| hbsay_done : host_bcalls_say p [] [] (Some p)
| hbsay_aborted c cs p' : host_bcall_says p c Aborted p' -> host_bcalls_say p (c :: cs) [Aborted] None
| hbsay_call c cs r rs p' fin : host_bcall_says p c r p' -> r <> Aborted -> host_bcalls_say p' cs rs fin ->
    host_bcalls_say p (c :: cs) (r :: rs) fin.

(** A history by the ordinary rules of SpecParams none of whose lists ever gets as long as half
    the host's address space, whose elements are never added further than that from the start of
    their list, and which does not abort. *)
Inductive bcalls_within (p : boot_info) : list bcall -> list reply -> option boot_info -> Prop :=
| within_done : bcalls_within p [] [] (Some p)
| within_call c cs r rs p' fin : bcall_says p c r p' -> r <> Aborted ->
    (forall w, lenN (contents (list_of w p')) < usz / 2) -> bcalls_within p' cs rs fin ->
    bcalls_within p (c :: cs) (r :: rs) fin.
End HostRules.
