(** * Demo_elf: concrete images, sources and memories used to show that hypotheses are met. *)
From Verif Require Import Base Io Mem SpecMem SpecFile SpecElf Loader Elf.

Definition ehdr_bytes (data entry phoff phentsize phnum : N) : bytes :=
  [x7f; x45; x4c; x46; x02] ++ le_enc 1 data ++ [x01] ++ zeros 9 ++
  le_enc 2 2 ++ le_enc 2 62 ++ le_enc 4 1 ++ le_enc 8 entry ++ le_enc 8 phoff ++ le_enc 8 0 ++
  le_enc 4 0 ++ le_enc 2 64 ++ le_enc 2 phentsize ++ le_enc 2 phnum ++ le_enc 2 0 ++ le_enc 2 0 ++ le_enc 2 0.
Definition phdr_bytes (ty off paddr filesz memsz : N) : bytes :=
  le_enc 4 ty ++ le_enc 4 5 ++ le_enc 8 off ++ le_enc 8 0 ++ le_enc 8 paddr ++ le_enc 8 filesz ++
  le_enc 8 memsz ++ le_enc 8 4096.

Definition demo_notes : list note :=
  [ mkNote 1 [x47; x4e; x55; x00] [x01; x02; x03];
    mkNote 18 [x58; x65; x6e] [];
    mkNote 18 [x58; x65; x6e; x00] (le_enc 8 0x1000040) ].

(** Two overlapping PT_LOAD segments, an empty one, and a PT_NOTE segment. *)
Definition demo_elf : bytes :=
  ehdr_bytes 1 0x1000100 64 56 4 ++
  phdr_bytes 1 288 0x1000000 8 32 ++ phdr_bytes 1 296 0x1000004 4 4 ++ phdr_bytes 1 0 0x5000 0 64 ++
  phdr_bytes 4 300 0 (lenN (enc_notes demo_notes)) 0 ++
  [x11; x12; x13; x14; x15; x16; x17; x18] ++ [x21; x22; x23; x24] ++ enc_notes demo_notes.

Definition plain_reader (f : bytes) : reader :=
  mkReader f 0 (2 ^ 63 - 1) (fun _ => 2 ^ 63) (fun _ _ => false) 0.
(** A source that transfers at most three bytes at a time. *)
Definition slow_reader (f : bytes) : reader :=
  mkReader f 7 (2 ^ 64 - 1) (fun _ => 3) (fun _ _ => false) 0.

Definition demo_mem : gmem := mkMem [mkRegion 0 0x10000; mkRegion 0x1000000 0x1000] (fun _ => xff).

(** Guest bytes [a, a+n). *)
Definition peek (m : gmem) (a : N) (n : nat) : bytes := map (fun i => gm_byte m (a + N.of_nat i)) (seq 0 n).

Lemma plain_wf f : lenN f < 2 ^ 63 -> wf_reader (plain_reader f).
Proof. unfold wf_reader, plain_reader. cbn. change (2 ^ 63) with 9223372036854775808. change (2 ^ 64) with 18446744073709551616. lia. Qed.
Lemma plain_quiet be f : lenN f < 2 ^ 63 -> ~ io_trouble be (plain_reader f).
Proof. intros H [(i & E)|[(i & E)|(_ & i & E)]]; cbn in *; [discriminate|discriminate|lia]. Qed.
Lemma slow_quiet f : ~ io_trouble TryAccess (slow_reader f).
Proof. intros [(i & E)|[(i & E)|(E & _)]]; discriminate. Qed.
Lemma slow_wf f : lenN f < 2 ^ 63 -> wf_reader (slow_reader f).
Proof. unfold wf_reader, slow_reader. cbn. change (2 ^ 63) with 9223372036854775808. change (2 ^ 64) with 18446744073709551616. lia. Qed.
