(** * SpecElf: what an ELF64 kernel image says, by absolute file offsets (ELF specification,
    "ELF Header", "Program Header", "Note Section"), and what loading it must do. *)
From Verif Require Import Base Io Mem SpecMem SpecFile Loader.

(** ELF header fields. *)
Definition entry_of (f : bytes) : N := u64at f 24.
Definition phoff_of (f : bytes) : N := u64at f 32.
Definition phentsize_of (f : bytes) : N := u16at f 54.
Definition phnum_of (f : bytes) : N := u16at f 56.

Definition elf_magic (f : bytes) : Prop :=
  byte_at f 0 = 127 /\ byte_at f 1 = 69 /\ byte_at f 2 = 76 /\ byte_at f 3 = 70.

(** The first test of the header that fails, if any. *)
Inductive header_problem (f : bytes) : elf_error -> Prop :=
| hp_short : lenN f < 64 -> header_problem f ReadElfHeader
| hp_magic : 64 <= lenN f -> ~ elf_magic f -> header_problem f InvalidElfMagicNumber
| hp_data : 64 <= lenN f -> elf_magic f -> byte_at f 5 <> 1 -> header_problem f BigEndianElfOnLittle
| hp_phent : 64 <= lenN f -> elf_magic f -> byte_at f 5 = 1 -> phentsize_of f <> 56 ->
    header_problem f InvalidProgramHeaderSize
| hp_phoff : 64 <= lenN f -> elf_magic f -> byte_at f 5 = 1 -> phentsize_of f = 56 ->
    phoff_of f < 64 -> header_problem f InvalidProgramHeaderOffset.

Definition header_good (f : bytes) : Prop :=
  64 <= lenN f /\ elf_magic f /\ byte_at f 5 = 1 /\ phentsize_of f = 56 /\ 64 <= phoff_of f.

(** Program headers. *)
Record ph := mkPh { ph_type : N; ph_offset : N; ph_paddr : N; ph_filesz : N; ph_memsz : N }.
Definition ph_at (f : bytes) (i : nat) : ph :=
  let o := phoff_of f + 56 * N.of_nat i in
  mkPh (u32at f o) (u64at f (o + 8)) (u64at f (o + 24)) (u64at f (o + 32)) (u64at f (o + 40)).
Definition phdrs_of (f : bytes) : list ph := map (ph_at f) (seq 0 (N.to_nat (phnum_of f))).
Definition table_inside (f : bytes) : Prop := phnum_of f = 0 \/ phoff_of f + 56 * phnum_of f <= lenN f.

Definition is_load (p : ph) : bool := (ph_type p =? 1) && negb (ph_filesz p =? 0).
Definition is_note (p : ph) : bool := ph_type p =? 4.
Definition loaded (ps : list ph) : list ph := filter is_load ps.

(** What can be wrong before any segment is looked at, in the order of the tests. *)
Definition base_of (off : option N) : N := match off with Some k => k | None => 0 end.
Definition highmem_ok (f : bytes) (highmem : option N) : Prop :=
  match highmem with Some h => h <= entry_of f | None => True end.
Inductive start_problem (f : bytes) (maxpos : N) (off highmem : option N) : elf_error -> Prop :=
| sp_header e : header_problem f e -> start_problem f maxpos off highmem e
| sp_entry : header_good f -> ~ highmem_ok f highmem ->
    start_problem f maxpos off highmem InvalidEntryAddress
| sp_overflow : header_good f -> highmem_ok f highmem -> 2 ^ 64 <= base_of off + entry_of f ->
    start_problem f maxpos off highmem ElfOverflow
| sp_seek : header_good f -> highmem_ok f highmem -> base_of off + entry_of f < 2 ^ 64 ->
    maxpos < phoff_of f -> start_problem f maxpos off highmem SeekProgramHeader
| sp_table : header_good f -> highmem_ok f highmem -> base_of off + entry_of f < 2 ^ 64 ->
    phoff_of f <= maxpos -> ~ table_inside f ->
    start_problem f maxpos off highmem ReadProgramHeader.
Definition start_good (f : bytes) (maxpos : N) (off highmem : option N) : Prop :=
  header_good f /\ highmem_ok f highmem /\ base_of off + entry_of f < 2 ^ 64 /\
  phoff_of f <= maxpos /\ table_inside f.

(** The bytes a loadable header brings in, and where they go. *)
Definition seg_of (f : bytes) (off : option N) (p : ph) : N * bytes :=
  (base_of off + ph_paddr p, part f (ph_offset p) (ph_filesz p)).
Definition segs_of (f : bytes) (off : option N) (ps : list ph) : list (N * bytes) :=
  map (seg_of f off) (loaded ps).
Definition seg_dest (off : option N) (p : ph) (x : N) : Prop :=
  is_load p = true /\ in_range (base_of off + ph_paddr p) (ph_filesz p) x.

(** End of the loaded image: the largest end over the loaded headers, 0 if there are none. *)
Definition end_of (off : option N) (p : ph) : N := base_of off + ph_paddr p + ph_memsz p.
Definition max_end (off : option N) (ps : list ph) : N :=
  fold_right N.max 0 (map (end_of off) (loaded ps)).

(** ** Notes *)
(** [n] rounded up to a multiple of 4. *)
Definition pad4 (n : N) : N := (n + 3) / 4 * 4.

Inductive note_verdict := NoteFound (entry : N) | NoteAbsent | NoteBad (e : elf_error).

(** Reading the note segment [start, start+filesz) of [f], being [rs] bytes into it. *)
Inductive note_scan (f : bytes) (maxpos start filesz : N) : N -> note_verdict -> Prop :=
| ns_end rs : filesz <= rs -> note_scan f maxpos start filesz rs NoteAbsent
| ns_no_header rs : rs < filesz -> lenN f < start + rs + 12 ->
    note_scan f maxpos start filesz rs (NoteBad ReadNoteHeader)
| ns_no_name rs : rs < filesz -> start + rs + 12 <= lenN f ->
    u32at f (start + rs + 8) = 18 -> u32at f (start + rs) = 4 -> lenN f < start + rs + 16 ->
    note_scan f maxpos start filesz rs (NoteBad ReadNoteHeader)
| ns_small rs : rs < filesz -> start + rs + 16 <= lenN f ->
    u32at f (start + rs + 8) = 18 -> u32at f (start + rs) = 4 ->
    part f (start + rs + 12) 4 = [x58; x65; x6e; x00] -> u32at f (start + rs + 4) < 4 ->
    note_scan f maxpos start filesz rs (NoteBad InvalidPvhNote)
| ns_no_desc rs : rs < filesz -> start + rs + 16 <= lenN f ->
    u32at f (start + rs + 8) = 18 -> u32at f (start + rs) = 4 ->
    part f (start + rs + 12) 4 = [x58; x65; x6e; x00] -> 4 <= u32at f (start + rs + 4) ->
    lenN f < start + rs + 20 ->
    note_scan f maxpos start filesz rs (NoteBad ReadNoteHeader)
| ns_found rs : rs < filesz -> start + rs + 20 <= lenN f ->
    u32at f (start + rs + 8) = 18 -> u32at f (start + rs) = 4 ->
    part f (start + rs + 12) 4 = [x58; x65; x6e; x00] -> 4 <= u32at f (start + rs + 4) ->
    note_scan f maxpos start filesz rs (NoteFound (u32at f (start + rs + 16)))
| ns_skip rs v : rs < filesz -> start + rs + 12 <= lenN f ->
    (u32at f (start + rs + 8) = 18 -> u32at f (start + rs) = 4 ->
     start + rs + 16 <= lenN f /\ part f (start + rs + 12) 4 <> [x58; x65; x6e; x00]) ->
    pad4 (u32at f (start + rs)) < 2 ^ 32 -> pad4 (u32at f (start + rs + 4)) < 2 ^ 32 ->
    start + (rs + 12 + pad4 (u32at f (start + rs)) + pad4 (u32at f (start + rs + 4))) <= maxpos ->
    note_scan f maxpos start filesz
      (rs + 12 + pad4 (u32at f (start + rs)) + pad4 (u32at f (start + rs + 4))) v ->
    note_scan f maxpos start filesz rs v
| ns_unseekable rs : rs < filesz -> start + rs + 12 <= lenN f ->
    (u32at f (start + rs + 8) = 18 -> u32at f (start + rs) = 4 ->
     start + rs + 16 <= lenN f /\ part f (start + rs + 12) 4 <> [x58; x65; x6e; x00]) ->
    pad4 (u32at f (start + rs)) < 2 ^ 32 -> pad4 (u32at f (start + rs + 4)) < 2 ^ 32 ->
    maxpos < start + (rs + 12 + pad4 (u32at f (start + rs)) + pad4 (u32at f (start + rs + 4))) ->
    note_scan f maxpos start filesz rs (NoteBad SeekNoteHeader)
| ns_huge rs : rs < filesz -> start + rs + 12 <= lenN f ->
    (u32at f (start + rs + 8) = 18 -> u32at f (start + rs) = 4 ->
     start + rs + 16 <= lenN f /\ part f (start + rs + 12) 4 <> [x58; x65; x6e; x00]) ->
    2 ^ 32 <= pad4 (u32at f (start + rs)) \/ 2 ^ 32 <= pad4 (u32at f (start + rs + 4)) ->
    note_scan f maxpos start filesz rs (NoteBad ElfOverflow).

(** What a PT_NOTE header leads to. *)
Inductive note_result (f : bytes) (maxpos : N) (p : ph) : note_verdict -> Prop :=
| nr_unseekable : maxpos < ph_offset p -> note_result f maxpos p (NoteBad SeekNoteHeader)
| nr_scan v : ph_offset p <= maxpos -> note_scan f maxpos (ph_offset p) (ph_filesz p) 0 v ->
    note_result f maxpos p v.

Definition verdict_cap (v : note_verdict) : option pvh_cap :=
  match v with
  | NoteFound a => Some (PvhEntryPresent a)
  | NoteAbsent => Some PvhEntryNotPresent
  | NoteBad _ => None
  end.

(** ** The fate of one program header: fine, or the error it causes *)
Inductive ph_fine (f : bytes) (maxpos : N) (m : gmem) (off : option N) (p : ph) : Prop :=
| pf_load : is_load p = true -> ph_offset p + ph_filesz p <= lenN f ->
    range_backed m (base_of off + ph_paddr p) (ph_filesz p) ->
    base_of off + ph_paddr p + ph_memsz p < 2 ^ 64 -> ph_fine f maxpos m off p
| pf_note v c : is_load p = false -> is_note p = true -> off = None ->
    note_result f maxpos p v -> verdict_cap v = Some c -> ph_fine f maxpos m off p
| pf_note_ignored k : is_load p = false -> is_note p = true -> off = Some k -> ph_fine f maxpos m off p
| pf_other : is_load p = false -> is_note p = false -> ph_fine f maxpos m off p.

Inductive ph_error (f : bytes) (maxpos : N) (m : gmem) (off : option N) (p : ph) : lerror -> Prop :=
| pe_seek : is_load p = true -> maxpos < ph_offset p ->
    ph_error f maxpos m off p (LElf SeekKernelStart)
| pe_addr : is_load p = true -> ph_offset p <= maxpos -> 2 ^ 64 <= base_of off + ph_paddr p ->
    ph_error f maxpos m off p (LElf InvalidProgramHeaderAddress)
| pe_read : is_load p = true -> ph_offset p <= maxpos -> base_of off + ph_paddr p < 2 ^ 64 ->
    (lenN f < ph_offset p + ph_filesz p \/
     ~ range_backed m (base_of off + ph_paddr p) (ph_filesz p)) ->
    ph_error f maxpos m off p (LElf ReadKernelImage)
| pe_end : is_load p = true -> ph_offset p + ph_filesz p <= lenN f ->
    base_of off + ph_paddr p < 2 ^ 64 ->
    range_backed m (base_of off + ph_paddr p) (ph_filesz p) ->
    2 ^ 64 <= base_of off + ph_paddr p + ph_memsz p ->
    ph_error f maxpos m off p MemoryOverflow
| pe_note e : is_load p = false -> is_note p = true -> off = None ->
    note_result f maxpos p (NoteBad e) -> ph_error f maxpos m off p (LElf e).

(** ** Errors caused by the source, each named after the step that failed *)
Inductive start_trouble (r : reader) (off highmem : option N) : elf_error -> Prop :=
| st_rewind : seek_trouble r -> start_trouble r off highmem SeekElfStart
| st_header : read_fault r -> start_trouble r off highmem ReadElfHeader
| st_seek : header_good (rd_data r) -> highmem_ok (rd_data r) highmem ->
    base_of off + entry_of (rd_data r) < 2 ^ 64 -> seek_trouble r ->
    start_trouble r off highmem SeekProgramHeader
| st_table : header_good (rd_data r) -> highmem_ok (rd_data r) highmem ->
    base_of off + entry_of (rd_data r) < 2 ^ 64 -> phoff_of (rd_data r) <= rd_maxpos r -> read_fault r ->
    start_trouble r off highmem ReadProgramHeader.
Inductive ph_trouble (be : backend) (r : reader) (off : option N) (p : ph) : lerror -> Prop :=
| pt_seek : is_load p = true -> seek_trouble r -> ph_trouble be r off p (LElf SeekKernelStart)
| pt_read : is_load p = true -> ph_offset p <= rd_maxpos r -> base_of off + ph_paddr p < 2 ^ 64 ->
    read_trouble be r -> ph_trouble be r off p (LElf ReadKernelImage)
| pt_note_seek : is_load p = false -> is_note p = true -> off = None -> seek_trouble r ->
    ph_trouble be r off p (LElf SeekNoteHeader)
| pt_note_read : is_load p = false -> is_note p = true -> off = None -> read_fault r ->
    ph_trouble be r off p (LElf ReadNoteHeader).

(** The PVH capability reported: that of the last PT_NOTE header, the default if there is none. *)
Inductive caps (f : bytes) (maxpos : N) (off : option N) : list ph -> pvh_cap -> Prop :=
| caps_none ps : (forall p, In p ps -> is_note p = false) -> caps f maxpos off ps PvhEntryIgnored
| caps_offset ps k : off = Some k -> caps f maxpos off ps PvhEntryIgnored
| caps_last pre p post v c : off = None -> is_note p = true ->
    (forall q, In q post -> is_note q = false) ->
    note_result f maxpos p v -> verdict_cap v = Some c ->
    caps f maxpos off (pre ++ p :: post) c.

(** ** A note segment as the ELF specification defines it: a sequence of notes, each with sizes of
    name and descriptor, a type, and name and descriptor padded to 4 bytes. *)
Record note := mkNote { note_type : N; note_name : bytes; note_desc : bytes }.
Definition padded (bs : bytes) : bytes := bs ++ zeros (pad4 (lenN bs) - lenN bs).
Definition enc_note (n : note) : bytes :=
  le_enc 4 (lenN (note_name n)) ++ le_enc 4 (lenN (note_desc n)) ++ le_enc 4 (note_type n) ++
  padded (note_name n) ++ padded (note_desc n).
Definition enc_notes (ns : list note) : bytes := concat (map enc_note ns).
Definition note_wf (n : note) : Prop :=
  note_type n < 2 ^ 32 /\ lenN (note_name n) <= 2 ^ 32 - 4 /\ lenN (note_desc n) <= 2 ^ 32 - 4.

(** The note carrying the PVH entry point: type 18, name "Xen\0". *)
Definition is_pvh_note (n : note) : bool :=
  (note_type n =? 18) &&
  (if list_eq_dec Byte.byte_eq_dec (note_name n) [x58; x65; x6e; x00] then true else false).

(** What a sequence of notes must lead to. *)
Definition notes_say (ns : list note) : note_verdict :=
  match find is_pvh_note ns with
  | None => NoteAbsent
  | Some n => if lenN (note_desc n) <? 4 then NoteBad InvalidPvhNote
              else NoteFound (u32at (note_desc n) 0)
  end.
