(** * Heap: the heap memory of the VMM that the ELF loader, the command line builder and BootParams take.

    And that of the lists of BootParams.  The other loaders and the configurators allocate nothing.  [Vec] and [String] grow as in std
    ([RawVec::grow_amortized]: at least double, at least 4 elements of a structure, at least 8 bytes of text); std is a
    dependency whose source is not in /repo. *)
From Verif Require Import Base Io Mem Layout Text Cmdline Loader Elf Source BootParams SpecBoot.

(** Room after [reserve(add)] on a vector of [len] elements with room for [room]; [least] is the smallest room. *)
(** The vector of program headers, src/loader/elf/mod.rs:244-251. *)
Definition reserve (least room len add : N) : N :=
  if room - len <? add then N.max (N.max (2 * room) (len + add)) least else room.

(** ** src/loader/elf/mod.rs:203-300 with [phdrs: Vec<Elf64_Phdr>] *)
Record heap := mkHeap {
  h_len : N;     (* elements of the vector *)
  h_room : N;    (* elements it has room for *)
  h_peak : N     (* most bytes ever held; while growing, old and new room are held together *)
}.
(** The vector of program headers, src/loader/elf/mod.rs:244-251. *)
Definition no_heap : heap := mkHeap 0 0 0.
(** The vector of program headers, src/loader/elf/mod.rs:244-251. *)
Definition push (h : heap) : heap :=
  let room' := reserve 4 (h_room h) (h_len h) 1 in
  mkHeap (h_len h + 1) room'
    (if room' =? h_room h then h_peak h else N.max (h_peak h) ((h_room h + room') * size Elf64_Phdr)).

Section Generic.
Context {S : Type} (src : source S).

(** The vector of program headers, src/loader/elf/mod.rs:244-251. *)
Definition H (A : Type) : Type := S -> gmem -> heap -> S * gmem * heap * outcome lerror A.
(** The vector of program headers, src/loader/elf/mod.rs:244-251. *)
Definition hbind {A B} (x : H A) (f : A -> H B) : H B := fun s m h =>
  match x s m h with
  | (s', m', h', Ok a) => f a s' m' h'
  | (s', m', h', Err e) => (s', m', h', Err e)
  | (s', m', h', Panic p) => (s', m', h', Panic p)
  end.
(** A step that does not use the heap. *)
(** The vector of program headers, src/loader/elf/mod.rs:244-251. *)
Definition hstep {A} (x : @G S lerror A) : H A := fun s m h => match x s m with (s', m', o) => (s', m', h, o) end.
(** The vector of program headers, src/loader/elf/mod.rs:244-251. *)
Definition hpush : H unit := fun s m h => (s, m, push h, Ok tt).

Notation "x <~ a ;; b" := (hbind a (fun x => b)) (at level 100, a at next level, right associativity).
Notation "a ;;~ b" := (hbind a (fun _ => b)) (at level 100, right associativity).

(** Lines 244-251. *)
Fixpoint hread_phdrs (n : nat) (phdrs : list bytes) : H (list bytes) :=
  match n with
  | O => hstep (gret phdrs)
  | Datatypes.S k =>
      phdr <~ hstep (gio (fun s => so_read_exact src s (size Elf64_Phdr)) (LElf ReadProgramHeader)) ;;
      hpush ;;~
      hread_phdrs k (phdrs ++ [phdr])
  end.

(** Lines 203-300. *)
Definition helf_load (bld : build) (be : backend) (off highmem : option N) : H load_result :=
  hstep (gio (fun s => so_seek_start src s 0) (LElf SeekElfStart)) ;;~
  ehdr <~ hstep (gio (fun s => so_read_exact src s (size Elf64_Ehdr)) (LElf ReadElfHeader)) ;;
  hstep (gpure (validate_header ehdr)) ;;~
  hstep (match highmem with
   | Some addr => if ehdr_get "e_entry" ehdr <? addr then gfail (LElf InvalidEntryAddress) else gret tt
   | None => gret tt
   end) ;;~
  load <~ hstep (gpure (match off with
                 | Some k => ok_or (checked_add k (ehdr_get "e_entry" ehdr)) (LElf ElfOverflow)
                 | None => Ok (ehdr_get "e_entry" ehdr)
                 end)) ;;
  hstep (gio (fun s => so_seek_start src s (ehdr_get "e_phoff" ehdr)) (LElf SeekProgramHeader)) ;;~
  phdrs <~ hread_phdrs (N.to_nat (ehdr_get "e_phnum" ehdr)) [] ;;
  res <~ hstep (gload_phdrs src bld be off phdrs 0 PvhEntryIgnored) ;;
  hstep (gret (mkResult load (fst res) None (snd res))).
End Generic.

(** ** src/cmdline/mod.rs: the room of the strings [boot_args] and [init_args] *)
Record rooms := mkRooms { boot_room : N; init_room : N }.
(** Lines 285-292, 342-348: [push(' ')] if there is text already, then [push_str]. *)
Definition appended (room : N) (old new : text) : N :=
  if str_len old =? 0 then reserve 8 room 0 (str_len new)
  else if str_len new =? str_len old then room
  else reserve 8 (reserve 8 room (str_len old) 1) (str_len old + 1) (str_len new - (str_len old + 1)).
(** One call; a refused call has not touched the strings.  Strings made by [format!] on the way are not counted. *)
(** src/cmdline/mod.rs:194-452. *)
Definition room_op (bld : build) (x : cmdline * rooms) (o : op) : cmdline * rooms :=
  match run_op bld (fst x) o with
  | (c', Ok _) => (c', mkRooms (appended (boot_room (snd x)) (boot_args (fst x)) (boot_args c'))
                              (appended (init_room (snd x)) (init_args (fst x)) (init_args c')))
  | (c', _) => (c', snd x)
  end.
(** src/cmdline/mod.rs:194-452. *)
Definition room_ops (bld : build) (x : cmdline * rooms) (os : list op) : cmdline * rooms := fold_left (room_op bld) os x.
(** Lines 163-174 ([String::new] allocates nothing) and 553-557 ([to_string] takes exactly the text). *)
Definition first_rooms (c : cmdline) : rooms := mkRooms (str_len (boot_args c)) (str_len (init_args c)).

(** ** src/configurator/mod.rs: the room of the lists [sections] and [modules] *)
Record lists := mkLists { sections_room : N; modules_room : N }.
(** Lines 211-219, 320-328: [flat_map(..).collect()].  A new vector; when it is full, room for the rest of the current element is
    reserved. *)
Fixpoint collected (room len : N) (es : list bytes) : N :=
  match es with [] => room | e :: r => collected (reserve 8 room len (lenN e)) (len + lenN e) r end.
(** Lines 399-421: [resize]; [splice] replaces bytes by as many.  A refused call leaves the list as it is. *)
Definition resized (room : N) (old new : option bytes) : N :=
  reserve 8 room (lenN (or_empty old)) (lenN (or_empty new) - lenN (or_empty old)).
(** src/configurator/mod.rs:211-219, 274-285, 320-328, 383-421. *)
Definition room_call (bld : build) (x : boot_info * lists) (c : bcall) : boot_info * lists :=
  let p := fst x in
  let p' := fst (call bld p c) in
  (p', match c with
       | BSet Sections es _ => mkLists (collected 0 0 es) (modules_room (snd x))
       | BSet Modules es _ => mkLists (sections_room (snd x)) (collected 0 0 es)
       | BAdd Sections _ _ => mkLists (resized (sections_room (snd x)) (sections p) (sections p')) (modules_room (snd x))
       | BAdd Modules _ _ => mkLists (sections_room (snd x)) (resized (modules_room (snd x)) (modules p) (modules p'))
       end).
(** src/configurator/mod.rs:211-219, 274-285, 320-328, 383-421. *)
Definition room_calls (bld : build) (x : boot_info * lists) (cs : list bcall) : boot_info * lists := fold_left (room_call bld) cs x.
