(** * SpecTalk: loading as a conversation with the image source.

    The other specifications speak of "the image", a fixed sequence of bytes.  A source need not have one: a
    file can be changed or truncated by somebody else while it is being read, a device can answer
    differently every time.  Here a call is described by the questions it asks and the answers it gets. *)
From Verif Require Import Base Io Mem SpecMem SpecFile Text Cmdline Loader SpecElf SpecBz Pe SpecPe Source.

(** One question to the source with its answer ([None]: an error). *)
Inductive event :=
| SoughtEnd (got : option N)                (* seek(SeekFrom::End(0)) *)
| SoughtTo (p : N) (got : option N)         (* seek(SeekFrom::Start(p)) *)
| SoughtBy (d : Z) (got : option N)         (* seek(SeekFrom::Current(d)) *)
| ReadAll (n : N) (got : option bytes)      (* read_exact, n bytes *)
| ReadSome (n : N) (got : option bytes)     (* a single read_volatile of up to n bytes into a structure *)
| ReadGuest (n : N) (got : option bytes).   (* a read of up to n bytes straight into guest memory *)

Definition answers {S} (src : source S) (s : S) (e : event) (s' : S) : Prop :=
  match e with
  | SoughtEnd got => so_seek_end src s = (s', got)
  | SoughtTo p got => so_seek_start src s p = (s', got)
  | SoughtBy d got => so_seek_cur src s d = (s', got)
  | ReadAll n got => so_read_exact src s n = (s', got)
  | ReadSome n got => so_read_volatile src s n = (s', got)
  | ReadGuest n got => so_read_retry src s n = (s', got)
  end.

(** A whole conversation. *)
Inductive talk {S} (src : source S) : S -> list event -> S -> Prop :=
| talk_nil s : talk src s [] s
| talk_cons s e s1 evs s' : answers src s e s1 -> talk src s1 evs s' -> talk src s (e :: evs) s'.

(** All that is asked of a source: a read gives no more bytes than asked for, [read_exact] gives exactly
    as many (or fails), positions are 64-bit numbers.  Anything else goes. *)
Definition plausible {S} (src : source S) : Prop :=
  (forall s n s' bs, so_read_exact src s n = (s', Some bs) -> lenN bs = n) /\
  (forall s n s' bs, so_read_volatile src s n = (s', Some bs) -> lenN bs <= n) /\
  (forall s n s' bs, so_read_retry src s n = (s', Some bs) -> lenN bs <= n) /\
  (forall s s' p, so_seek_end src s = (s', Some p) -> p < 2 ^ 64).
(** Technical: the ghost that bounds the model's loops is out of the way. *)
Definition roomy {S} (src : source S) : Prop := forall s, 2 ^ 64 <= N.of_nat (so_len src s).

(** ** Copying into guest memory *)
(** By how much a copy moves on after a read of [k] bytes that gave [bs]. *)
Definition moved (be : backend) (k : N) (bs : bytes) : N :=
  match be with TryAccess => lenN bs | GetSlices => k end.
(** What was copied where. *)
Fixpoint landed (be : backend) (a : N) (evs : list event) : list (N * bytes) :=
  match evs with
  | ReadGuest k (Some bs) :: rest => (a, bs) :: landed be (a + moved be k bs) rest
  | _ => []
  end.
(** Every read goes to existing guest memory inside [a, a+n) and asks for all that is still missing, or for all that fits up to
    the end of a memory region; nothing is asked after an error, nor after a read that brought nothing or the rest. *)
Fixpoint proper (be : backend) (m : gmem) (a n : N) (evs : list event) : Prop :=
  match evs with
  | [] => True
  | ReadGuest k got :: rest =>
      k <= n /\ range_backed m a k /\ (k = n \/ exists r, In r (regions m) /\ a + k = r_base r + r_len r) /\
      match got with
      | None => rest = []
      | Some bs => lenN bs <= k /\ (moved be k bs = 0 \/ moved be k bs = n -> rest = []) /\
          proper be m (a + moved be k bs) (n - moved be k bs) rest
      end
  | _ :: _ => False
  end.
(** All the bytes that were copied, in order. *)
Fixpoint heard (evs : list event) : bytes :=
  match evs with
  | [] => []
  | ReadGuest _ (Some bs) :: rest => bs ++ heard rest
  | _ :: rest => heard rest
  end.
(** An answer after which a copy cannot succeed: an error, "end of file", or (for the region-slice
    strategy of vm-memory) too few bytes. *)
Definition bad_answer (be : backend) (e : event) : Prop :=
  match e with
  | ReadGuest _ None => True
  | ReadGuest k (Some bs) => match be with TryAccess => 0 < k /\ bs = [] | GetSlices => lenN bs < k end
  | _ => False
  end.
(** [n] bytes were copied to [a]. *)
Definition copied (be : backend) (m : gmem) (a n : N) (evs : list event) (m' : gmem) : Prop :=
  proper be m a n evs /\ dest_ok be m a n /\ Forall (fun e => ~ bad_answer be e) evs /\
  lenN (heard evs) = n /\ mem_is_overlay m m' [(a, heard evs)].
(** The copy went wrong, because of the source or of the memory; what did arrive is in memory. *)
Definition not_copied (be : backend) (m : gmem) (a n : N) (evs : list event) (m' : gmem) : Prop :=
  proper be m a n evs /\ (~ dest_ok be m a n \/ Exists (bad_answer be) evs) /\
  mem_is_overlay m m' (landed be a evs).

(** ** Device tree blobs *)
Inductive dtb_talk (be : backend) (addr : N) (m : gmem) : list event -> gmem -> outcome lerror unit -> Prop :=
| dt_no_end : dtb_talk be addr m [SoughtEnd None] m (Err (LPe SeekDtbEnd))
| dt_big n : 2 * 1024 * 1024 < n -> dtb_talk be addr m [SoughtEnd (Some n)] m (Err (LPe DtbTooBig))
| dt_no_start n : n <= 2 * 1024 * 1024 ->
    dtb_talk be addr m [SoughtEnd (Some n); SoughtTo 0 None] m (Err (LPe SeekDtbStart))
| dt_not_copied n q evs m' : n <= 2 * 1024 * 1024 -> not_copied be m addr n evs m' ->
    dtb_talk be addr m (SoughtEnd (Some n) :: SoughtTo 0 (Some q) :: evs) m' (Err (LPe ReadDtbImage))
| dt_copied n q evs m' : n <= 2 * 1024 * 1024 -> copied be m addr n evs m' ->
    dtb_talk be addr m (SoughtEnd (Some n) :: SoughtTo 0 (Some q) :: evs) m' (Ok tt).

(** ** PE images: one length [n], one header [h] *)
Inductive pe_talk (a : arch) (be : backend) (off : option N) (m : gmem)
  : list event -> gmem -> outcome lerror load_result -> Prop :=
| pk_no_end : pe_talk a be off m [SoughtEnd None] m (Err (LPe SeekImageEnd))
| pk_no_start n : pe_talk a be off m [SoughtEnd (Some n); SoughtTo 0 None] m (Err (LPe SeekImageHeader))
| pk_no_header n q :
    pe_talk a be off m [SoughtEnd (Some n); SoughtTo 0 (Some q); ReadAll 64 None] m (Err (LPe ReadImageHeader))
| pk_bad n q h e : lenN h = 64 -> pe_problem a h off e ->
    pe_talk a be off m [SoughtEnd (Some n); SoughtTo 0 (Some q); ReadAll 64 (Some h)] m (Err (LPe e))
| pk_no_rewind n q h : lenN h = 64 -> pe_good a h off ->
    pe_talk a be off m [SoughtEnd (Some n); SoughtTo 0 (Some q); ReadAll 64 (Some h); SoughtTo 0 None] m
      (Err (LPe SeekImageHeader))
| pk_not_copied n q h q2 evs m' : lenN h = 64 -> pe_good a h off -> not_copied be m (pe_load_addr a h off) n evs m' ->
    pe_talk a be off m
      (SoughtEnd (Some n) :: SoughtTo 0 (Some q) :: ReadAll 64 (Some h) :: SoughtTo 0 (Some q2) :: evs) m'
      (Err (LPe PeReadKernelImage))
| pk_copied n q h q2 evs m' : lenN h = 64 -> pe_good a h off -> copied be m (pe_load_addr a h off) n evs m' ->
    pe_load_addr a h off + n < 2 ^ 64 ->
    pe_talk a be off m
      (SoughtEnd (Some n) :: SoughtTo 0 (Some q) :: ReadAll 64 (Some h) :: SoughtTo 0 (Some q2) :: evs) m'
      (Ok (mkResult (pe_load_addr a h off) (pe_load_addr a h off + n) None PvhEntryIgnored)).

(** ** bzImages: one length [n], one look at the header, which gave [bs] *)
(** A file of which nothing but the header bytes [bs] is known. *)
Definition as_file (bs : bytes) : bytes := zeros 0x1f1 ++ bs.
(** The 123 bytes of a header of which [bs] arrived. *)
Definition filled (bs : bytes) : bytes := bs ++ zeros (123 - lenN bs).
Inductive bz_problem (n : N) (bs : bytes) (highmem : option N) : lerror -> Prop :=
| bp_header : ~ bz_header_good (as_file bs) -> bz_problem n bs highmem (LBz InvalidBzImage)
| bp_small : bz_header_good (as_file bs) -> n < bz_setup_size (as_file bs) ->
    bz_problem n bs highmem (LBz BzUnderflow)
| bp_start : bz_header_good (as_file bs) -> bz_setup_size (as_file bs) <= n -> ~ bz_highmem_ok (as_file bs) highmem ->
    bz_problem n bs highmem InvalidKernelStartAddress.
Definition bz_good (n : N) (bs : bytes) (highmem : option N) : Prop :=
  bz_header_good (as_file bs) /\ bz_setup_size (as_file bs) <= n /\ bz_highmem_ok (as_file bs) highmem.
Inductive bz_talk (be : backend) (off highmem : option N) (m : gmem)
  : list event -> gmem -> outcome lerror load_result -> Prop :=
| bk_no_end : bz_talk be off highmem m [SoughtEnd None] m (Err (LBz SeekBzImageEnd))
| bk_no_start n : bz_talk be off highmem m [SoughtEnd (Some n); SoughtTo 0x1f1 None] m (Err (LBz SeekBzImageHeader))
| bk_no_header n q :
    bz_talk be off highmem m [SoughtEnd (Some n); SoughtTo 0x1f1 (Some q); ReadSome 123 None] m
      (Err (LBz ReadBzImageHeader))
| bk_bad n q bs e : lenN bs <= 123 -> bz_problem n bs highmem e ->
    bz_talk be off highmem m [SoughtEnd (Some n); SoughtTo 0x1f1 (Some q); ReadSome 123 (Some bs)] m (Err e)
| bk_no_kernel n q bs : lenN bs <= 123 -> bz_good n bs highmem ->
    bz_talk be off highmem m
      [SoughtEnd (Some n); SoughtTo 0x1f1 (Some q); ReadSome 123 (Some bs); SoughtTo (bz_setup_size (as_file bs)) None] m
      (Err (LBz SeekBzImageCompressedKernel))
| bk_not_copied n q bs q2 evs m' : lenN bs <= 123 -> bz_good n bs highmem ->
    not_copied be m (bz_load_addr (as_file bs) off) (n - bz_setup_size (as_file bs)) evs m' ->
    bz_talk be off highmem m
      (SoughtEnd (Some n) :: SoughtTo 0x1f1 (Some q) :: ReadSome 123 (Some bs) ::
       SoughtTo (bz_setup_size (as_file bs)) (Some q2) :: evs) m'
      (Err (LBz ReadBzImageCompressedKernel))
| bk_copied n q bs q2 evs m' : lenN bs <= 123 -> bz_good n bs highmem ->
    copied be m (bz_load_addr (as_file bs) off) (n - bz_setup_size (as_file bs)) evs m' ->
    bz_load_addr (as_file bs) off + (n - bz_setup_size (as_file bs)) < 2 ^ 64 ->
    bz_talk be off highmem m
      (SoughtEnd (Some n) :: SoughtTo 0x1f1 (Some q) :: ReadSome 123 (Some bs) ::
       SoughtTo (bz_setup_size (as_file bs)) (Some q2) :: evs) m'
      (Ok (mkResult (bz_load_addr (as_file bs) off)
             (bz_load_addr (as_file bs) off + (n - bz_setup_size (as_file bs)))
             (Some (with_code32 (filled bs) (bz_load_addr (as_file bs) off))) PvhEntryIgnored)).

(** ** ELF images: one header, one table of program headers *)
(** A program header from its 56 bytes. *)
Definition ph_read (b : bytes) : ph := mkPh (u32at b 0) (u64at b 8) (u64at b 24) (u64at b 32) (u64at b 40).

(** Length of the note with header [h], with padding; and whether the padded sizes are 32-bit numbers. *)
Definition note_len (h : bytes) : N := 12 + pad4 (u32at h 0) + pad4 (u32at h 4).
Definition pads_fit (h : bytes) : Prop := pad4 (u32at h 0) < 2 ^ 32 /\ pad4 (u32at h 4) < 2 ^ 32.
(** The note with header [h] is not the PVH entry note.  The list: its name was read if type and size are right. *)
Inductive other_note (h : bytes) : list event -> Prop :=
| on_plain : lenN h = 12 -> ~ (u32at h 8 = 18 /\ u32at h 0 = 4) -> other_note h []
| on_named nm : lenN h = 12 -> u32at h 8 = 18 -> u32at h 0 = 4 -> lenN nm = 4 -> nm <> [x58; x65; x6e; x00] ->
    other_note h [ReadAll 4 (Some nm)].

(** Reading the entry point from the PVH note with header [h]. *)
Inductive entry_talk (h : bytes) : list event -> outcome lerror pvh_cap -> Prop :=
| en_no_move : entry_talk h [SoughtBy 0 None] (Err (LElf SeekNoteHeader))
| en_small q : u32at h 4 < 4 -> entry_talk h [SoughtBy 0 (Some q)] (Err (LElf InvalidPvhNote))
| en_no_desc q : 4 <= u32at h 4 -> entry_talk h [SoughtBy 0 (Some q); ReadAll 4 None] (Err (LElf ReadNoteHeader))
| en_found q d : 4 <= u32at h 4 -> lenN d = 4 ->
    entry_talk h [SoughtBy 0 (Some q); ReadAll 4 (Some d)] (Ok (PvhEntryPresent (u32at d 0))).

(** The notes of the segment at [start], being [rs] bytes into its [filesz] bytes.  The conversation, and
    what it leads to.  [Panic]: the sum of [start] and the way into the segment exceeds 64 bits, in a
    build with overflow checks; without them it wraps. *)
Inductive notes_talk (bld : build) (start filesz : N) : N -> list event -> outcome lerror pvh_cap -> Prop :=
| nk_end rs : filesz <= rs -> notes_talk bld start filesz rs [] (Ok PvhEntryNotPresent)
| nk_no_header rs : rs < filesz -> notes_talk bld start filesz rs [ReadAll 12 None] (Err (LElf ReadNoteHeader))
| nk_no_name rs h : rs < filesz -> lenN h = 12 -> u32at h 8 = 18 -> u32at h 0 = 4 ->
    notes_talk bld start filesz rs [ReadAll 12 (Some h); ReadAll 4 None] (Err (LElf ReadNoteHeader))
| nk_found rs h tail o : rs < filesz -> lenN h = 12 -> u32at h 8 = 18 -> u32at h 0 = 4 -> entry_talk h tail o ->
    notes_talk bld start filesz rs (ReadAll 12 (Some h) :: ReadAll 4 (Some [x58; x65; x6e; x00]) :: tail) o
| nk_over rs h name : rs < filesz -> other_note h name ->
    2 ^ 32 <= pad4 (u32at h 0) \/ 2 ^ 32 <= pad4 (u32at h 4) \/ 2 ^ 64 <= rs + note_len h ->
    notes_talk bld start filesz rs (ReadAll 12 (Some h) :: name) (Err (LElf ElfOverflow))
| nk_panic rs h name : rs < filesz -> other_note h name -> pads_fit h -> rs + note_len h < 2 ^ 64 ->
    bld = true -> 2 ^ 64 <= start + (rs + note_len h) ->
    notes_talk bld start filesz rs (ReadAll 12 (Some h) :: name) (Panic ArithOverflow)
| nk_no_next rs h name : rs < filesz -> other_note h name -> pads_fit h -> rs + note_len h < 2 ^ 64 ->
    (bld = true -> start + (rs + note_len h) < 2 ^ 64) ->
    notes_talk bld start filesz rs
      (ReadAll 12 (Some h) :: name ++ [SoughtTo ((start + (rs + note_len h)) mod 2 ^ 64) None]) (Err (LElf SeekNoteHeader))
| nk_next rs h name q evs o : rs < filesz -> other_note h name -> pads_fit h -> rs + note_len h < 2 ^ 64 ->
    (bld = true -> start + (rs + note_len h) < 2 ^ 64) ->
    notes_talk bld start filesz (rs + note_len h) evs o ->
    notes_talk bld start filesz rs
      (ReadAll 12 (Some h) :: name ++ SoughtTo ((start + (rs + note_len h)) mod 2 ^ 64) (Some q) :: evs) o.

(** One program header: the PVH capability it brings, if any. *)
Inductive ph_talk (bld : build) (be : backend) (off : option N) (m : gmem) (p : ph)
  : list event -> gmem -> outcome lerror (option pvh_cap) -> Prop :=
| hk_other : is_load p = false -> is_note p = false -> ph_talk bld be off m p [] m (Ok None)
| hk_ignored k : is_load p = false -> is_note p = true -> off = Some k ->
    ph_talk bld be off m p [] m (Ok (Some PvhEntryIgnored))
| hk_no_notes : is_load p = false -> is_note p = true -> off = None ->
    ph_talk bld be off m p [SoughtTo (ph_offset p) None] m (Err (LElf SeekNoteHeader))
| hk_notes q evs o : is_load p = false -> is_note p = true -> off = None ->
    notes_talk bld (ph_offset p) (ph_filesz p) 0 evs o ->
    ph_talk bld be off m p (SoughtTo (ph_offset p) (Some q) :: evs) m
      (match o with Ok c => Ok (Some c) | Err e => Err e | Panic w => Panic w end)
| hk_no_start : is_load p = true ->
    ph_talk bld be off m p [SoughtTo (ph_offset p) None] m (Err (LElf SeekKernelStart))
| hk_addr q : is_load p = true -> 2 ^ 64 <= base_of off + ph_paddr p ->
    ph_talk bld be off m p [SoughtTo (ph_offset p) (Some q)] m (Err (LElf InvalidProgramHeaderAddress))
| hk_not_copied q evs m' : is_load p = true -> base_of off + ph_paddr p < 2 ^ 64 ->
    not_copied be m (base_of off + ph_paddr p) (ph_filesz p) evs m' ->
    ph_talk bld be off m p (SoughtTo (ph_offset p) (Some q) :: evs) m' (Err (LElf ReadKernelImage))
| hk_end q evs m' : is_load p = true -> base_of off + ph_paddr p < 2 ^ 64 ->
    copied be m (base_of off + ph_paddr p) (ph_filesz p) evs m' ->
    2 ^ 64 <= base_of off + ph_paddr p + ph_memsz p ->
    ph_talk bld be off m p (SoughtTo (ph_offset p) (Some q) :: evs) m' (Err MemoryOverflow)
| hk_copied q evs m' : is_load p = true -> base_of off + ph_paddr p < 2 ^ 64 ->
    copied be m (base_of off + ph_paddr p) (ph_filesz p) evs m' ->
    base_of off + ph_paddr p + ph_memsz p < 2 ^ 64 ->
    ph_talk bld be off m p (SoughtTo (ph_offset p) (Some q) :: evs) m' (Ok None).

(** The table, entry by entry, up to the first that fails.  Result: the capability last brought, [c] if none was. *)
Inductive table_talk (bld : build) (be : backend) (off : option N)
  : gmem -> list ph -> pvh_cap -> list event -> gmem -> outcome lerror pvh_cap -> Prop :=
| tk_nil m c : table_talk bld be off m [] c [] m (Ok c)
| tk_err m p ps c evs m' e : ph_talk bld be off m p evs m' (Err e) ->
    table_talk bld be off m (p :: ps) c evs m' (Err e)
| tk_panic m p ps c evs m' w : ph_talk bld be off m p evs m' (Panic w) ->
    table_talk bld be off m (p :: ps) c evs m' (Panic w)
| tk_cons m p ps c evs m1 c1 evs2 m' o : ph_talk bld be off m p evs m1 (Ok c1) ->
    table_talk bld be off m1 ps (match c1 with Some x => x | None => c end) evs2 m' o ->
    table_talk bld be off m (p :: ps) c (evs ++ evs2) m' o.

(** What is wrong with a header [h] of 64 bytes. *)
Inductive elf_problem (h : bytes) (off highmem : option N) : elf_error -> Prop :=
| ep_header e : header_problem h e -> elf_problem h off highmem e
| ep_entry : header_good h -> ~ highmem_ok h highmem -> elf_problem h off highmem InvalidEntryAddress
| ep_overflow : header_good h -> highmem_ok h highmem -> 2 ^ 64 <= base_of off + entry_of h ->
    elf_problem h off highmem ElfOverflow.
Definition elf_good (h : bytes) (off highmem : option N) : Prop :=
  lenN h = 64 /\ header_good h /\ highmem_ok h highmem /\ base_of off + entry_of h < 2 ^ 64.

Definition got_entry (b : bytes) : event := ReadAll 56 (Some b).
Inductive elf_talk (bld : build) (be : backend) (off highmem : option N) (m : gmem)
  : list event -> gmem -> outcome lerror load_result -> Prop :=
| ek_no_start : elf_talk bld be off highmem m [SoughtTo 0 None] m (Err (LElf SeekElfStart))
| ek_no_header q :
    elf_talk bld be off highmem m [SoughtTo 0 (Some q); ReadAll 64 None] m (Err (LElf ReadElfHeader))
| ek_bad q h e : lenN h = 64 -> elf_problem h off highmem e ->
    elf_talk bld be off highmem m [SoughtTo 0 (Some q); ReadAll 64 (Some h)] m (Err (LElf e))
| ek_no_table q h : elf_good h off highmem ->
    elf_talk bld be off highmem m [SoughtTo 0 (Some q); ReadAll 64 (Some h); SoughtTo (phoff_of h) None] m
      (Err (LElf SeekProgramHeader))
| ek_short_table q h q2 bs : elf_good h off highmem -> lenN bs < phnum_of h -> Forall (fun b => lenN b = 56) bs ->
    elf_talk bld be off highmem m
      (SoughtTo 0 (Some q) :: ReadAll 64 (Some h) :: SoughtTo (phoff_of h) (Some q2) :: map got_entry bs ++ [ReadAll 56 None]) m
      (Err (LElf ReadProgramHeader))
| ek_table q h q2 bs evs m' o : elf_good h off highmem -> lenN bs = phnum_of h -> Forall (fun b => lenN b = 56) bs ->
    table_talk bld be off m (map ph_read bs) PvhEntryIgnored evs m' o ->
    elf_talk bld be off highmem m
      (SoughtTo 0 (Some q) :: ReadAll 64 (Some h) :: SoughtTo (phoff_of h) (Some q2) :: map got_entry bs ++ evs) m'
      (match o with
       | Ok c => Ok (mkResult (base_of off + entry_of h) (max_end off (map ph_read bs)) None c)
       | Err e => Err e
       | Panic w => Panic w
       end).
