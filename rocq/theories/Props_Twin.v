(** * Props_Twin: property C98.

    Bytes of an image outside its headers, segments and notes do not matter, and neither do bytes
    appended to an ELF file. *)
From Verif Require Import Base Base_proofs Io Mem Layout Mem_proofs SpecMem SpecFile File_proofs
  Loader Elf BzImage SpecElf SpecBz Elf_proofs Elf_proofs2 Note_proofs Bz_proofs SpecTwin Twin_proofs Demo_elf.
Open Scope loader_scope.

Lemma elf_twin bld be off highmem f g r m r1 m1 o :
  wf_mem m = true -> wf_reader r -> rd_data r = f -> lenN f <= lenN g -> same_bytes f g (elf_looks f off) ->
  elf_load bld be off highmem r m = (r1, m1, o) -> (lenN f = lenN g \/ exists a, o = Ok a) ->
  elf_load bld be off highmem (with_data g r) m = (with_data g r1, m1, o).
Proof.
  intros Hm Hw Hd Hle Hs H D.
  assert (L63 : lenN f < 2 ^ 63) by (rewrite <- Hd; apply Hw).
  revert r1 m1 o H D. change (same f g (elf_load bld be off highmem) r m).
  unfold elf_load. apply (same_bind f g); [apply same_seek|].
  intros r1 m1 u Hu. unfold lio in Hu.
  destruct (seek_start_cases r 0) as [(r' & E & _)|(E & _)]; rewrite E in Hu; [discriminate|]. injection Hu as <- <- _.
  apply (same_bind f g).
  { apply (same_read f g (elf_looks f off) Hle Hs); [exact Hd|]. intros x Hx. apply look_header.
    change (size Elf64_Ehdr) with 64 in Hx. cbn [rd_step rd_pos] in Hx. lia. }
  intros r1 m1 eh Heh. unfold lio in Heh. change (size Elf64_Ehdr) with 64 in Heh.
  destruct (read_exact_cases (rd_step r 0) 64) as [(r' & E1 & _)|(E1 & L1)]; rewrite E1 in Heh; [discriminate|].
  injection Heh as <- <- <-. cbn [rd_step rd_data rd_pos] in L1. cbn [rd_step rd_data rd_pos rd_maxpos rd_chunk rd_fault rd_ops]. rewrite Hd in *.
  assert (L1' : 64 <= lenN f) by lia.
  apply (same_bind f g); [apply same_pure|]. intros r1 m1 v Hv. injection Hv as <- <- _.
  apply (same_bind f g). { destruct highmem as [h|]; [destruct (_ <? h); [apply same_fail|apply same_ret]|apply same_ret]. }
  intros r1 m1 w Hh.
  assert (X : r1 = rd_step (rd_step r 0) (0 + 64) /\ m1 = m).
  { destruct highmem as [h|]; [destruct (_ <? h); [discriminate|]|]; injection Hh as <- <- _; split; reflexivity. }
  destruct X as [-> ->]. clear Hh w v.
  apply (same_bind f g); [apply same_pure|]. intros r1 m1 load Hl. injection Hl as <- <- _.
  rewrite ehdr_phoff, ehdr_phnum by exact L1'.
  apply (same_bind f g); [apply same_seek|].
  intros r1 m1 u' Hu. unfold lio in Hu.
  destruct (seek_start_cases (rd_step (rd_step r 0) (0 + 64)) (phoff_of f)) as [(r' & E2 & _)|(E2 & _)]; rewrite E2 in Hu; [discriminate|].
  injection Hu as <- <- _.
  apply (same_bind f g).
  { apply (same_phdrs f g (elf_looks f off) Hle Hs L63); [exact Hd|]. intros x Hx. apply look_table. cbn [rd_step rd_pos] in Hx. lia. }
  intros r1 m1 bs Hb. apply read_phdrs_spec in Hb as (-> & Henv & Hb).
  destruct Hb as [(Hb & Lb)|(Hb & _)]; [|discriminate]. injection Hb as ->.
  cbn [rd_step rd_data rd_pos] in Lb. cbn [rd_step rd_data rd_pos]. rewrite Hd in *.
  apply (same_bind f g); [|intros; apply same_ret].
  apply (same_load f g (elf_looks f off) Hle Hs L63).
  - apply Forall_forall. intros b Hb. apply in_map_iff in Hb as (i & <- & Hi). apply in_seq in Hi.
    assert (Li : phoff_of f + 56 * N.of_nat i + 56 <= lenN f) by (destruct Lb as [Lb|Lb]; lia).
    pose proof (ph_of_slice f _ Li) as Ep.
    assert (Ip : In (ph_of (slice f (phoff_of f + 56 * N.of_nat i) 56)) (phdrs_of f)).
    { rewrite Ep. unfold phdrs_of. apply in_map_iff. exists i. split; [reflexivity|]. apply in_seq. lia. }
    split.
    + intros T Z x Hx. eapply look_segment; [exact Ip| |exact Hx].
      unfold is_load, ph_of. cbn [ph_type ph_filesz]. rewrite T. apply N.eqb_neq in Z. rewrite Z. reflexivity.
    + intros Ho T x Hx. eapply look_note; [exact Ho|exact Ip| |cbn [ph_of ph_offset ph_filesz]; lia].
      unfold is_note, ph_of. cbn [ph_type]. rewrite T. reflexivity.
  - exact Hm.
  - apply (env_wf _ _ Henv). exact Hw.
  - destruct Henv as (Ed & _). rewrite Ed. exact Hd.
Qed.

(** ** C98: only the bytes of [elf_looks] matter; for a load that fails as for one that succeeds,
    whatever the source does. *)
Theorem C98_elf : forall bld be off highmem r g m r1 m1 o,
  wf_mem m = true -> wf_reader r -> lenN g = lenN (rd_data r) ->
  same_bytes (rd_data r) g (elf_looks (rd_data r) off) ->
  elf_load bld be off highmem r m = (r1, m1, o) ->
  elf_load bld be off highmem (with_data g r) m = (with_data g r1, m1, o).
Proof.
  intros bld be off highmem r g m r1 m1 o Hm Hw Hl Hs H.
  apply (elf_twin bld be off highmem (rd_data r) g r m r1 m1 o Hm Hw eq_refl); [lia|exact Hs|exact H|left; lia].
Qed.
(** Anything may follow an ELF image that loads. *)
Theorem C98_elf_trailing : forall bld be off highmem r junk m r1 m1 res,
  wf_mem m = true -> wf_reader r ->
  elf_load bld be off highmem r m = (r1, m1, Ok res) ->
  elf_load bld be off highmem (with_data (rd_data r ++ junk) r) m = (with_data (rd_data r ++ junk) r1, m1, Ok res).
Proof.
  intros bld be off highmem r junk m r1 m1 res Hm Hw H.
  apply (elf_twin bld be off highmem (rd_data r) (rd_data r ++ junk) r m r1 m1 (Ok res) Hm Hw eq_refl).
  - rewrite lenN_app. lia.
  - intros x _ Hx. apply nth_error_app1. unfold lenN in Hx. lia.
  - exact H.
  - right. eauto.
Qed.

Lemma same_end f g r m e : lenN f = lenN g -> rd_data r = f -> same f g (lio seek_end e) r m.
Proof.
  intros Hl Hd r1 m1 o H _. unfold lio, seek_end, rd_len in *. cbn [with_data rd_data rd_fault rd_ops]. rewrite Hd in *.
  destruct (rd_fault r Seeking (rd_ops r)); injection H as <- <- <-; [reflexivity|]. rewrite <- Hl. reflexivity.
Qed.
Lemma same_header f g R r m e : lenN f = lenN g -> same_bytes f g R -> rd_data r = f -> on R (rd_pos r) 123 ->
  same f g (lio read_header e) r m.
Proof.
  intros Hl Hs Hd Ho r1 m1 o H _. unfold lio, read_header in *. change (size setup_header) with 123 in *.
  rewrite (same_volatile f g R ltac:(lia) Hs) by (try assumption; right; exact Hl).
  destruct (read_volatile r 123) as [r2 [bs|]]; cbn [fst snd]; injection H as <- <- <-; reflexivity.
Qed.
(** A header that passes the magic test was read far enough for its first byte to be the file's. *)
Lemma seen_sects f k : bz_magic (seen f k) = 0x53726448 -> bz_setup_sects (seen f k) = bz_setup_sects f.
Proof.
  intros H. unfold bz_setup_sects, seen. rewrite part_slice, byte_at_slice.
  destruct (N.ltb_spec 0x1f1 (0x1f1 + k)) as [L|L]; [reflexivity|]. exfalso.
  assert (k = 0) as -> by lia. unfold bz_magic, u32at, u16at, seen in H. rewrite part_slice in H. rewrite !byte_at_slice in H.
  vm_compute in H. discriminate.
Qed.

Theorem C98_bzimage : forall be off highmem r g m r1 m1 o,
  wf_mem m = true -> wf_reader r -> lenN g = lenN (rd_data r) ->
  same_bytes (rd_data r) g (bz_looks (rd_data r)) ->
  bz_load be off highmem r m = (r1, m1, o) ->
  bz_load be off highmem (with_data g r) m = (with_data g r1, m1, o).
Proof.
  intros be off highmem r g m r1 m1 o Hm Hw Hlen Hs H.
  assert (Hl : lenN (rd_data r) = lenN g) by lia. clear Hlen.
  set (f := rd_data r) in *. assert (Hd : rd_data r = f) by reflexivity. clearbody f.
  assert (Hle : lenN f <= lenN g) by lia.
  assert (G : same f g (bz_load be off highmem) r m); [|exact (G r1 m1 o H (or_introl Hl))]. clear H r1 m1 o.
  unfold bz_load. apply (same_bind f g); [apply same_end; assumption|].
  intros r1 m1 n Hn. unfold lio in Hn. destruct (seek_end_cases r) as [(r' & E & _)|E]; rewrite E in Hn; [discriminate|].
  injection Hn as <- <- <-. unfold rd_len. rewrite Hd.
  apply (same_bind f g); [apply same_seek|].
  intros r1 m1 u Hu. unfold lio in Hu.
  destruct (seek_start_cases (rd_step r (lenN f)) 0x1F1) as [(r' & E1 & _)|(E1 & _)]; rewrite E1 in Hu; [discriminate|].
  injection Hu as <- <- _.
  apply (same_bind f g).
  { apply (same_header f g (bz_looks f)); [exact Hl|exact Hs|exact Hd|]. intros x Hx. left. cbn [rd_step rd_pos] in Hx. lia. }
  intros r1 m1 h Hh. unfold lio in Hh.
  destruct (read_header_cases (rd_step (rd_step r (lenN f)) 0x1F1)) as [(r' & E2 & _)|(r' & k & E2 & Henv & _)]; rewrite E2 in Hh; [discriminate|].
  injection Hh as <- <- <-. cbv zeta. cbn [rd_step rd_pos rd_data]. rewrite Hd, <- part_slice.
  change (part f 497 (N.min k 123) ++ zeros (123 - lenN (part f 497 (N.min k 123)))) with (header_got f k).
  rewrite hdr_header, hdr_version, hdr_loadflags, hdr_setup_sects, hdr_code32, hdr_set_code32.
  destruct (N.eqb_spec (bz_magic (seen f k)) 0x53726448) as [Mg|]; cbn [negb]; [|apply same_fail].
  rewrite (seen_sects f k Mg).
  destruct (_ || _); [apply same_fail|].
  pose proof (byte_at_lt f 0x1f1 : bz_setup_sects f < 256) as Lb.
  set (s := if bz_setup_sects f =? 0 then 4 else bz_setup_sects f).
  assert (Hsz : 1 <= s < 256) by (unfold s; destruct (N.eqb_spec (bz_setup_sects f) 0); lia).
  assert (Ess : (match checked_add s 1 with Some x => checked_mul x 512 | None => None end) = Some (bz_setup_size f)).
  { unfold checked_add, checked_mul. destruct (N.ltb_spec (s + 1) two64); [|unfold two64 in *; lia].
    destruct (N.ltb_spec ((s + 1) * 512) two64); [|unfold two64 in *; lia]. f_equal. unfold bz_setup_size. fold s. lia. }
  rewrite Ess. cbn [ok_or].
  apply (same_bind f g); [apply same_pure|]. intros r1 m1 ss Hss. injection Hss as <- <- <-.
  apply (same_bind f g); [apply same_pure|]. intros r1 m1 ks Hks. injection Hks as <- <- Hks.
  destruct (match highmem with Some h => _ | None => false end); [apply same_fail|].
  apply (same_bind f g); [apply same_seek|].
  intros r1 m1 u' Hu. unfold lio in Hu.
  destruct (seek_start_cases r' (bz_setup_size f)) as [(r3 & E3 & _)|(E3 & _)]; rewrite E3 in Hu; [discriminate|].
  injection Hu as <- <- _.
  destruct Henv as (Ed & _). cbn [rd_step rd_data] in Ed.
  apply (same_bind f g).
  { apply (same_copy f g (bz_looks f) Hle Hs); [exact Hm|cbn [rd_step rd_data]; congruence| |right; exact Hl].
    intros x Hx. right. cbn [rd_step rd_pos] in Hx. lia. }
  intros r1 m1 c Hc. apply (same_bind f g); [apply same_pure|]. intros; apply same_ret.
Qed.

(** Four unused bytes between the table and the only segment. *)
Definition gap_elf (gap : bytes) : bytes :=
  ehdr_bytes 1 0x1000100 64 56 1 ++ phdr_bytes 1 124 0x1000000 4 8 ++ gap ++ [x11; x12; x13; x14].
Lemma gap_agree g1 g2 : lenN g1 = 4 -> lenN g2 = 4 -> phoff_of (gap_elf g1) = 64 -> phnum_of (gap_elf g1) = 1 ->
  phdrs_of (gap_elf g1) = [mkPh 1 124 0x1000000 4 8] ->
  forall off, same_bytes (gap_elf g1) (gap_elf g2) (elf_looks (gap_elf g1) off).
Proof.
  intros L1 L2 Ep En Eh off x Hx _. unfold gap_elf. rewrite !app_assoc.
  assert (C : x < 120 \/ 124 <= x).
  { destruct Hx as [H|H|p Hp _ H|p _ Hp N H].
    - left. lia.
    - rewrite Ep, En in H. left. lia.
    - rewrite Eh in Hp. destruct Hp as [<-|[]]. cbn [ph_offset ph_filesz] in H. right. lia.
    - rewrite Eh in Hp. destruct Hp as [<-|[]]. discriminate N. }
  set (front := ehdr_bytes 1 0x1000100 64 56 1 ++ phdr_bytes 1 124 0x1000000 4 8).
  assert (Lf : length front = 120%nat) by (vm_compute; reflexivity). unfold lenN in L1, L2.
  destruct C as [C|C].
  - rewrite <- !app_assoc. rewrite !nth_error_app1 by lia. reflexivity.
  - rewrite !(nth_error_app2 (_ ++ _)) by (rewrite app_length; lia). rewrite !app_length, Lf.
    replace (length g2) with (length g1) by lia. reflexivity.
Qed.
Example C98_applies : forall off,
  let f := gap_elf (zeros 4) in let g := gap_elf [x01; x02; x03; x04] in
  wf_mem demo_mem = true /\ wf_reader (slow_reader f) /\ lenN g = lenN f /\ f <> g /\
  same_bytes f g (elf_looks f off) /\
  snd (elf_load true TryAccess None None (slow_reader f) demo_mem) = Ok (mkResult 0x1000100 0x1000008 None PvhEntryIgnored).
Proof.
  intros off f g. split; [reflexivity|]. split; [apply slow_wf; vm_compute; reflexivity|]. split; [vm_compute; reflexivity|].
  split; [intros H; apply (f_equal (fun l => nth_error l 120)) in H; vm_compute in H; discriminate|].
  split; [apply gap_agree; vm_compute; reflexivity|]. vm_compute. reflexivity.
Qed.
(** The 19 bytes after a note segment are not too many: the entry point's last byte can be there. *)
Definition tail_elf (b : byte) : bytes :=
  ehdr_bytes 1 0x1000100 64 56 1 ++ phdr_bytes 4 120 0 1 0 ++
  le_enc 4 4 ++ le_enc 4 4 ++ le_enc 4 18 ++ [x58; x65; x6e; x00] ++ [x00; x00; x00] ++ [b].
Example C98_note_overhang : lenN (tail_elf x00) = 120 + 1 + 19 /\
  snd (elf_load true TryAccess None None (plain_reader (tail_elf x00)) demo_mem) = Ok (mkResult 0x1000100 0 None (PvhEntryPresent 0)) /\
  snd (elf_load true TryAccess None None (plain_reader (tail_elf x01)) demo_mem) = Ok (mkResult 0x1000100 0 None (PvhEntryPresent 0x1000000)).
Proof. split; [vm_compute; reflexivity|]. split; vm_compute; reflexivity. Qed.
(** Bytes appended to a file that does not load can make it load. *)
Example C98_trailing_failed_refuted : exists f junk,
  snd (elf_load true TryAccess None None (plain_reader f) demo_mem) = Err (LElf ReadNoteHeader) /\
  snd (elf_load true TryAccess None None (plain_reader (f ++ junk)) demo_mem) = Ok (mkResult 0x1000100 0 None (PvhEntryPresent 0)).
Proof. exists (firstn 139 (tail_elf x00)), [x00]. split; vm_compute; reflexivity. Qed.

(** A bzImage of three setup sectors, with other code in the boot sector and the setup part. *)
Definition code_bz (code : byte) : bytes :=
  repeat code 497 ++ [x02] ++ zeros 16 ++ [x48; x64; x72; x53; x0c; x02] ++ zeros 9 ++ [x01] ++ zeros 2 ++ le_enc 4 0x1000000 ++ zeros 84 ++
  repeat code 916 ++ [xaa; xbb].
Example C98_bz_applies :
  let f := code_bz x90 in let g := code_bz xcc in
  lenN g = lenN f /\ f <> g /\ same_bytes f g (bz_looks f) /\
  match bz_load GetSlices None None (plain_reader f) demo_mem with
  | (_, m', Ok res) => kernel_load res = 0x1000000 /\ kernel_end res = 0x1000002 /\ gm_byte m' 0x1000001 = xbb
  | _ => False
  end.
Proof.
  intros f g. split; [vm_compute; reflexivity|].
  split; [intros H; apply (f_equal (fun l => nth_error l 0)) in H; vm_compute in H; discriminate|].
  split; [|vm_compute; auto].
  assert (Es : bz_setup_size f = 1536) by (vm_compute; reflexivity).
  intros x [H|H] Hl; [|rewrite Es in H].
  - assert (Q : forall k, (k < 123)%nat -> nth_error g (497 + k) = nth_error f (497 + k)).
    { assert (E : firstn 123 (skipn 497 g) = firstn 123 (skipn 497 f)) by (vm_compute; reflexivity).
      intros k Hk. pose proof (f_equal (fun l => nth_error l (N.to_nat (N.of_nat k))) E) as E'.
      change (firstn 123 (skipn 497 g)) with (part g 497 123) in E'. change (firstn 123 (skipn 497 f)) with (part f 497 123) in E'.
      cbv beta in E'. rewrite !part_slice, !nth_error_slice in E' by lia.
      replace (N.to_nat (497 + N.of_nat k)) with (497 + k)%nat in E' by lia. exact E'. }
    replace (N.to_nat x) with (497 + (N.to_nat x - 497))%nat by lia. apply Q. lia.
  - assert (Lf : lenN f = 1538) by (vm_compute; reflexivity).
    assert (Q : x = 1536 \/ x = 1537) by lia. destruct Q as [-> | ->]; vm_compute; reflexivity.
Qed.
(** In a bzImage, appended bytes do matter: they are loaded. *)
Example C98_bz_trailing_refuted :
  match snd (bz_load GetSlices None None (plain_reader (code_bz x90)) demo_mem),
        snd (bz_load GetSlices None None (plain_reader (code_bz x90 ++ [x00])) demo_mem) with
  | Ok a, Ok b => kernel_end a = 0x1000002 /\ kernel_end b = 0x1000003
  | _, _ => False
  end.
Proof. vm_compute. auto. Qed.
