(** * Props_Bz: the bzImage loader, properties C34-C38.

    Vocabulary: SpecBz.v, SpecFile.v, SpecMem.v.  [bz_load be off highmem r m = (r', m', o)]: loading
    from source [r] into guest memory [m] with optional kernel offset and high memory start ends
    with outcome [o], memory [m'].  [rd_data r] is the image file. *)
From Verif Require Import Base Base_proofs Io Mem SpecMem Mem_proofs Layout Loader BzImage SpecFile SpecBz
  File_proofs Elf_proofs Elf_proofs2 Bz_proofs Demo_elf.

(** A run on a well-formed source (which can at least seek to the header), a well-formed guest
    memory, and u64 arguments. *)
Definition bz_runs be off highmem r m m' o : Prop :=
  wf_reader r /\ 0x1f1 <= rd_maxpos r /\ wf_mem m = true /\ (forall a, off = Some a -> a < 2 ^ 64) /\
  exists r', bz_load be off highmem r m = (r', m', o).

(** What follows the setup part of the file. *)
Definition bz_payload (f : bytes) : bytes := part f (bz_setup_size f) (lenN f - bz_setup_size f).

(** ** A demonstration image: two setup sectors, code32_start 0x1000000, eight payload bytes. *)
Definition demo_bz : bytes :=
  zeros 0x1f1 ++ [x02] ++ zeros 16 ++ le_enc 4 0x53726448 ++ le_enc 2 0x20c ++ zeros 9 ++ [x01] ++ [x00; x00] ++
  le_enc 4 0x1000000 ++ repeat xaa 84 ++ zeros (1536 - 620) ++ [x11; x12; x13; x14; x15; x16; x17; x18].
Example demo_bz_fields : lenN demo_bz = 1544 /\ bz_setup_size demo_bz = 1536 /\ bz_code32_start demo_bz = 0x1000000 /\
  bz_magic demo_bz = 0x53726448 /\ bz_version demo_bz = 0x20c /\ bz_loadflags demo_bz = 1.
Proof. repeat split; vm_compute; reflexivity. Qed.

Example demo_bz_runs : forall be, exists m' h,
  bz_runs be None (Some 0x1000000) (plain_reader demo_bz) demo_mem m' (Ok (mkResult 0x1000000 0x1000008 (Some h) PvhEntryIgnored)) /\
  peek m' 0xfffffe 12 = [xff; xff; x11; x12; x13; x14; x15; x16; x17; x18; xff; xff].
Proof.
  intros be. destruct be; (do 2 eexists; (split; [split; [apply plain_wf; reflexivity|split; [vm_compute; discriminate|split; [reflexivity|split; [discriminate|]]]];
    eexists; vm_compute; reflexivity|vm_compute; reflexivity])).
Qed.

Lemma quiet_plain f : lenN f < 2 ^ 63 -> ~ short_or_fault (plain_reader f).
Proof. intros H [(k & i & E)|(i & E)]; cbn in *; [discriminate|lia]. Qed.

(** ** Reading header fields from the part of the file that was seen. *)
Lemma seen_byte f k o : o < 0x1f1 + k -> byte_at (seen f k) o = byte_at f o.
Proof. intros H. unfold seen. rewrite part_slice, byte_at_slice. rewrite (proj2 (N.ltb_lt _ _)) by assumption. reflexivity. Qed.
Lemma seen_byte0 f k o : 0x1f1 + k <= o -> byte_at (seen f k) o = 0.
Proof. intros H. unfold seen. rewrite part_slice, byte_at_slice. rewrite (proj2 (N.ltb_ge _ _)) by assumption. reflexivity. Qed.
Lemma seen_setup_size f k : 1 <= k -> bz_setup_size (seen f k) = bz_setup_size f.
Proof. intros H. unfold bz_setup_size, bz_setup_sects. now rewrite seen_byte by lia. Qed.
Lemma seen_good f k : bz_header_good (seen f k) -> 33 <= k.
Proof.
  intros (_ & _ & H). destruct (N.le_gt_cases 33 k) as [|Hk]; [assumption|]. exfalso.
  unfold bz_loadflags in H. rewrite seen_byte0 in H by lia. discriminate.
Qed.
Lemma seen_header f k : 33 <= k ->
  bz_magic (seen f k) = bz_magic f /\ bz_version (seen f k) = bz_version f /\ bz_loadflags (seen f k) = bz_loadflags f.
Proof.
  intros H. unfold bz_magic, bz_version, bz_loadflags, u32at, u16at. rewrite !seen_byte by lia. auto.
Qed.
Lemma seen_header_good f k : 33 <= k -> (bz_header_good (seen f k) <-> bz_header_good f).
Proof. intros H. unfold bz_header_good. destruct (seen_header f k H) as (-> & -> & ->). reflexivity. Qed.
Lemma seen_code32 f k : 39 <= k -> bz_code32_start (seen f k) = bz_code32_start f.
Proof. intros H. unfold bz_code32_start, u32at, u16at. rewrite !seen_byte by lia. reflexivity. Qed.
Lemma setup_size_min f : 1024 <= bz_setup_size f.
Proof. unfold bz_setup_size. destruct (N.eqb_spec (bz_setup_sects f) 0); lia. Qed.
Lemma header_got_full f k : lenN f >= 0x1f1 + 123 -> 123 <= k -> header_got f k = part f 0x1f1 123.
Proof.
  intros H Hk. unfold header_got. rewrite N.min_r by lia. assert (E : lenN (part f 0x1f1 123) = 123) by (rewrite part_slice, lenN_slice; lia).
  rewrite E. change (zeros (123 - 123)) with (@nil byte). apply app_nil_r.
Qed.

Lemma dest_ok_end be m a n : wf_mem m = true -> a < 2 ^ 64 -> dest_ok be m a n -> a + n < 2 ^ 64.
Proof.
  intros Hw Ha [Hd _]. destruct (N.eq_dec n 0) as [->|Hn]; [lia|].
  destruct (Hd (a + (n - 1)) ltac:(lia) ltac:(lia)) as (rg & Hin & _ & Hlt).
  unfold wf_mem in Hw. rewrite forallb_forall in Hw. specialize (Hw rg Hin). unfold two64 in Hw. change (2 ^ 64) with 18446744073709551616. lia.
Qed.
Lemma load_addr_lt f off : (forall a, off = Some a -> a < 2 ^ 64) -> bz_load_addr f off < 2 ^ 64.
Proof.
  intros H. destruct off as [a|]; cbn; [auto|]. unfold bz_code32_start, u32at, u16at.
  pose proof (byte_at_lt f 532). pose proof (byte_at_lt f (532 + 1)). pose proof (byte_at_lt f (532 + 2)). pose proof (byte_at_lt f (532 + 2 + 1)).
  change (2 ^ 64) with 18446744073709551616. lia.
Qed.

Ltac use_bz H :=
  let Hwr := fresh "Hwr" in let Hmp := fresh "Hmp" in let Hwm := fresh "Hwm" in let Hoff := fresh "Hoff" in let r' := fresh "r'" in let E := fresh "Erun" in
  destruct H as (Hwr & Hmp & Hwm & Hoff & r' & E);
  pose proof (bz_load_spec _ _ _ _ _ _ _ _ Hwr Hmp Hwm E) as (Henv & Hreg & Hpost).

(** ** C34: which images are accepted. *)
Theorem C34_bz_accepts_iff : forall be off highmem r m m' o,
  bz_runs be off highmem r m m' o -> ~ short_or_fault r ->
  ((exists res, o = Ok res) <->
   let f := rd_data r in
   bz_header_good f /\ bz_setup_size f <= lenN f /\ bz_highmem_ok f highmem /\
   dest_ok be m (bz_load_addr f off) (lenN (bz_payload f))).
Proof.
  intros until o. intros H Hq. use_bz H. destruct Hpost as [(Hs & _)|(k & Hk & Hpost)]; [contradiction|].
  assert (Hq1 : ~ seek_trouble r) by (intros X; apply Hq; exact (seek_short _ X)).
  assert (Hq2 : forall b, ~ read_trouble b r) by (intros b X; apply Hq; exact (trouble_short b _ (rtrouble_io _ _ X))).
  destruct Hk as [-> |Hk]; [|exfalso; apply Hq; right; exact Hk]. cbv zeta. set (f := rd_data r) in *.
  assert (Hpl : bz_setup_size f <= lenN f -> lenN (bz_payload f) = lenN f - bz_setup_size f).
  { intros Hle. unfold bz_payload. rewrite part_slice, lenN_slice. lia. }
  assert (Ehm : forall h, bz_highmem_ok (seen f 123) h <-> bz_highmem_ok f h).
  { intros h. unfold bz_highmem_ok. rewrite seen_code32 by lia. reflexivity. }
  assert (Ela : bz_load_addr (seen f 123) off = bz_load_addr f off).
  { unfold bz_load_addr. rewrite seen_code32 by lia. reflexivity. }
  rewrite (seen_header_good f 123), seen_setup_size, Ehm, Ela in Hpost by lia.
  destruct Hpost as [(Hb & -> & _)|[(Hg & Hl & -> & _)|[(Hg & Hl & Hh & -> & _)|(Hg & Hl & Hh & Hpost)]]].
  - split; [intros (? & ?); discriminate|intros (? & _); contradiction].
  - split; [intros (? & ?); discriminate|intros (_ & ? & _); lia].
  - split; [intros (? & ?); discriminate|intros (_ & _ & ? & _); contradiction].
  - rewrite Hpl by assumption. cbv zeta in Hpost. destruct Hpost as [(Hs & _)|(_ & Hpost)]; [contradiction|].
    destruct Hpost as [(-> & [Hs|Hd])|(Hd & _ & Hpost)]; [exfalso; exact (Hq2 _ Hs)| |].
    + split; [intros (? & ?); discriminate|intros (_ & _ & _ & ?); contradiction].
    + split; [auto|]. intros _. pose proof (dest_ok_end _ _ _ _ Hwm (load_addr_lt f _ Hoff) Hd) as Hlt. change (2 ^ 64) with two64 in Hlt.
      destruct Hpost as [(Hge & _)|(_ & ->)]; [lia|]. eauto.
Qed.
Example C34_applies : forall be, ~ short_or_fault (plain_reader demo_bz) /\
  (exists m' res, bz_runs be None (Some 0x1000000) (plain_reader demo_bz) demo_mem m' (Ok res)) /\
  (exists m' e, bz_runs be (Some 0xfffc) None (plain_reader demo_bz) demo_mem m' (Err e)).
Proof.
  intros be. split; [apply quiet_plain; reflexivity|].
  destruct be; split; eexists _, _; (split; [apply plain_wf; reflexivity|]; split; [vm_compute; discriminate|]; split; [reflexivity|]; split;
    [intros a Ea; inversion Ea; reflexivity|eexists; vm_compute; reflexivity]).
Qed.

(** ** C35: the payload is placed whole, where the result says, and nothing else is written;
    for every source, also one with faults and short reads. *)
Theorem C35_bz_payload_placed : forall be off highmem r m m' res,
  bz_runs be off highmem r m m' (Ok res) ->
  let f := rd_data r in
  bz_setup_size f <= lenN f /\
  mem_is_overlay m m' [(kernel_load res, bz_payload f)] /\
  range_backed m (kernel_load res) (lenN (bz_payload f)) /\
  kernel_end res = kernel_load res + lenN (bz_payload f) /\ kernel_end res < 2 ^ 64 /\
  pvh_boot_cap res = PvhEntryIgnored /\
  (forall a, off = Some a -> kernel_load res = a) /\
  (~ short_reads r -> kernel_load res = bz_load_addr f off).
Proof.
  intros until res. intros H. use_bz H. destruct Hpost as [(_ & _ & [Ho|[Ho|Ho]])|(k & Hk & Hpost)]; try discriminate.
  cbv zeta in Hpost |- *. set (f := rd_data r) in *.
  destruct Hpost as [(_ & Ho & _)|[(_ & _ & Ho & _)|[(_ & _ & _ & Ho & _)|(Hg & Hl & Hh & Hpost)]]]; try discriminate.
  destruct Hpost as [(_ & Ho & _)|(_ & [(Ho & _)|(Hd & Hov & [(_ & Ho)|(Hlt & Ho)])])]; try discriminate.
  pose proof (seen_good _ _ Hg) as H33. rewrite seen_setup_size in Hl, Hd, Hov, Hlt, Ho by lia.
  assert (Hpl : lenN (bz_payload f) = lenN f - bz_setup_size f) by (unfold bz_payload; rewrite part_slice, lenN_slice; lia).
  inversion Ho; subst res. cbn [kernel_load kernel_end pvh_boot_cap]. rewrite Hpl.
  split; [exact Hl|]. split; [exact Hov|]. split; [apply Hd|]. split; [reflexivity|]. split; [exact Hlt|]. split; [reflexivity|]. split.
  - intros a ->. reflexivity.
  - intros Hq. destruct Hk as [-> |Hk]; [|contradiction]. unfold bz_load_addr. rewrite seen_code32 by lia. reflexivity.
Qed.

(** In particular each payload byte can be read back in the guest. *)
Theorem C35_bz_payload_readable : forall be off highmem r m m' res,
  bz_runs be off highmem r m m' (Ok res) ->
  forall i, bz_setup_size (rd_data r) + i < lenN (rd_data r) ->
  nth_error (rd_data r) (N.to_nat (bz_setup_size (rd_data r) + i)) = Some (gm_byte m' (kernel_load res + i)).
Proof.
  intros until res. intros H i Hi. apply C35_bz_payload_placed in H. cbv zeta in H. destruct H as (Hl & (_ & Hov) & _). rewrite Hov.
  unfold overlay. cbn [fold_left fst snd]. unfold bz_payload. rewrite part_slice.
  destruct (nth_error (rd_data r) (N.to_nat (bz_setup_size (rd_data r) + i))) as [b|] eqn:En.
  - symmetry. f_equal. apply put_in. rewrite nth_error_slice by lia. exact En.
  - apply nth_error_None in En. unfold lenN in Hi. lia.
Qed.

(** ** C36: the returned setup header. *)
Lemma le_enc4_u32 a g : u32at (le_enc 4 a ++ g) 0 = a mod 2 ^ 32.
Proof.
  change (le_enc 4 a ++ g) with ([] ++ le_enc 4 a ++ g). pose proof (le_dec_slice4 ([] ++ le_enc 4 a ++ g) 0) as H. rewrite <- H. clear H.
  replace (slice ([] ++ le_enc 4 a ++ g) 0 4) with (le_enc 4 a).
  - rewrite le_dec_enc. reflexivity.
  - rewrite <- part_slice. reflexivity.
Qed.

Lemma with_code32_spec h a : lenN h = 123 ->
  lenN (with_code32 h a) = 123 /\
  (forall i, i < 35 \/ 39 <= i -> nth_error (with_code32 h a) (N.to_nat i) = nth_error h (N.to_nat i)) /\
  u32at (with_code32 h a) 35 = a mod 2 ^ 32.
Proof.
  intros Hl. unfold with_code32.
  assert (L1 : length (part h 0 35) = 35%nat) by (pose proof (lenN_slice h 0 35) as E; rewrite <- part_slice in E; unfold lenN in *; lia).
  assert (L2 : length (le_enc 4 a) = 4%nat) by (pose proof (lenN_le_enc 4 a) as E; unfold lenN in *; lia).
  assert (L3 : length (part h 39 84) = 84%nat) by (pose proof (lenN_slice h 39 84) as E; rewrite <- part_slice in E; unfold lenN in *; lia).
  split; [|split].
  - unfold lenN. rewrite !app_length, L1, L2, L3. reflexivity.
  - intros i [Hi|Hi].
    + rewrite nth_error_app1 by lia. rewrite part_slice, nth_error_slice by lia. now rewrite N.add_0_l.
    + rewrite nth_error_app2 by lia. rewrite nth_error_app2 by lia. rewrite L1, L2.
      replace (N.to_nat i - 35 - 4)%nat with (N.to_nat (i - 39)) by lia.
      destruct (N.lt_ge_cases (i - 39) 84) as [H|H].
      * rewrite part_slice, nth_error_slice by assumption. f_equal. lia.
      * rewrite !(proj2 (nth_error_None _ _)); [reflexivity| |]; unfold lenN in *; lia.
  - rewrite <- (le_enc4_u32 a (part h 39 84)). unfold u32at, u16at.
    assert (P : lenN (part h 0 35) = 35) by (unfold lenN; now rewrite L1).
    rewrite !(byte_at_app (part h 0 35)). rewrite P. reflexivity.
Qed.

Lemma bz_ok_header be off highmem r m m' res : bz_runs be off highmem r m m' (Ok res) ->
  exists k, (k = 123 \/ short_reads r) /\ bz_header_good (seen (rd_data r) k) /\ bz_setup_size (rd_data r) <= lenN (rd_data r) /\
    bz_highmem_ok (seen (rd_data r) k) highmem /\
    result_header res = Some (with_code32 (header_got (rd_data r) k) (kernel_load res)).
Proof.
  intros H. use_bz H. destruct Hpost as [(_ & _ & [Ho|[Ho|Ho]])|(k & Hk & Hpost)]; try discriminate.
  cbv zeta in Hpost |- *. set (f := rd_data r) in *.
  destruct Hpost as [(_ & Ho & _)|[(_ & _ & Ho & _)|[(_ & _ & _ & Ho & _)|(Hg & Hl & Hh & Hpost)]]]; try discriminate.
  destruct Hpost as [(_ & Ho & _)|(_ & [(Ho & _)|(Hd & Hov & [(_ & Ho)|(Hlt & Ho)])])]; try discriminate.
  pose proof (seen_good _ _ Hg) as H33. rewrite seen_setup_size in Hl by lia.
  exists k. inversion Ho; subst res. auto 8.
Qed.

Theorem C36_bz_setup_header : forall be off highmem r m m' res,
  bz_runs be off highmem r m m' (Ok res) -> ~ short_reads r ->
  exists h, result_header res = Some h /\ lenN h = 123 /\
    (forall i, i < 123 -> i < 35 \/ 39 <= i -> nth_error h (N.to_nat i) = nth_error (rd_data r) (N.to_nat (0x1f1 + i))) /\
    u32at h 35 = kernel_load res mod 2 ^ 32 /\
    (u32at h 35 = kernel_load res <-> kernel_load res < 2 ^ 32).
Proof.
  intros until res. intros H Hq. apply bz_ok_header in H as (k & Hk & _ & Hl & _ & E).
  destruct Hk as [-> |Hk]; [|contradiction]. pose proof (setup_size_min (rd_data r)) as Hmin.
  exists (with_code32 (header_got (rd_data r) 123) (kernel_load res)). split; [exact E|].
  destruct (with_code32_spec _ (kernel_load res) (header_got_len (rd_data r) 123)) as (H1 & H2 & H3).
  split; [exact H1|]. split.
  - intros i Hi Hi2. rewrite H2 by assumption. rewrite header_got_full by lia. rewrite part_slice, nth_error_slice by assumption. reflexivity.
  - split; [exact H3|]. rewrite H3. change (2 ^ 32) with 4294967296. split.
    + intros <-. apply N.mod_lt. lia.
    + intros. apply N.mod_small. assumption.
Qed.
Example C35_C36_applies : forall be, ~ short_reads (plain_reader demo_bz) /\
  exists m' res h, bz_runs be (Some 0x4000) None (plain_reader demo_bz) demo_mem m' (Ok res) /\ kernel_load res = 0x4000 /\
    result_header res = Some h /\ u32at h 35 = 0x4000 /\ bz_code32_start demo_bz = 0x1000000.
Proof.
  intros be. split; [intros H; apply (quiet_plain demo_bz eq_refl); now right|].
  destruct be; eexists _, _, _; (split; [split; [apply plain_wf; reflexivity|]; split; [vm_compute; discriminate|]; split; [reflexivity|]; split;
    [intros a Ea; inversion Ea; reflexivity|eexists; vm_compute; reflexivity]|]); (split; [reflexivity|]; split; [reflexivity|]; split; vm_compute; reflexivity).
Qed.

(** ** C37: errors. *)
(** No error at all leaves a byte outside the destination changed, and no run panics. *)
Theorem C37_bz_errors_frame : forall be off highmem r m m' o,
  bz_runs be off highmem r m m' o ->
  (forall p, o <> Panic p) /\
  (forall e, o = Err e ->
     m' = m \/ (e = LBz ReadBzImageCompressedKernel /\
       exists a, (off = Some a \/ off = None) /\ same_outside m m' (in_range a (lenN (bz_payload (rd_data r)))) /\
         (off = None -> ~ short_reads r -> a = bz_code32_start (rd_data r)) /\ (forall b, off = Some b -> a = b))).
Proof.
  intros until o. intros H. use_bz H. set (f := rd_data r) in *. destruct Hpost as [(_ & -> & Ho)|(k & Hk & Hpost)].
  { destruct Ho as [-> |[-> | ->]]; (split; [discriminate|auto]). }
  cbv zeta in Hpost. fold f in Hpost.
  destruct Hpost as [(_ & -> & ->)|[(_ & _ & -> & ->)|[(_ & _ & _ & -> & ->)|(Hg & Hl & Hh & Hpost)]]]; try (split; [discriminate|auto]).
  destruct Hpost as [(_ & -> & ->)|(Hso & Hpost)]; [split; [discriminate|auto]|].
  destruct Hpost as [(-> & _)|(Hd & _ & [(Hge & ->)|(_ & ->)])]; [| |split; discriminate].
  - split; [discriminate|]. intros e Ee. inversion Ee; subst e. right. split; [reflexivity|].
    pose proof (seen_good _ _ Hg) as H33. rewrite seen_setup_size in * by lia.
    exists (bz_load_addr (seen f k) off). split; [destruct off; auto|]. split.
    + replace (lenN (bz_payload f)) with (lenN f - bz_setup_size f); [exact Hso|]. unfold bz_payload. rewrite part_slice, lenN_slice. lia.
    + split.
      * intros -> Hq. destruct Hk as [-> |Hk]; [|contradiction]. cbn. now rewrite seen_code32 by lia.
      * intros b ->. reflexivity.
  - pose proof (dest_ok_end _ _ _ _ Hwm (load_addr_lt (seen f k) _ Hoff) Hd) as Hlt. change (2 ^ 64) with two64 in Hlt. lia.
Qed.

(** The complete list of errors the loader can return: in particular it never reports an overflow. *)
Theorem C37_bz_error_list : forall be off highmem r m m' e,
  bz_runs be off highmem r m m' (Err e) ->
  In e [LBz SeekBzImageEnd; LBz SeekBzImageHeader; LBz ReadBzImageHeader; LBz InvalidBzImage; LBz BzUnderflow;
        InvalidKernelStartAddress; LBz SeekBzImageCompressedKernel; LBz ReadBzImageCompressedKernel].
Proof.
  intros until e. intros H. use_bz H. set (f := rd_data r) in *. cbn [In].
  destruct Hpost as [(_ & _ & Ho)|(k & Hk & Hpost)].
  { destruct Ho as [Ho|[Ho|Ho]]; injection Ho as ->; auto. }
  cbv zeta in Hpost. fold f in Hpost.
  destruct Hpost as [(_ & Ho & _)|[(_ & _ & Ho & _)|[(_ & _ & _ & Ho & _)|(Hg & Hl & Hh & Hpost)]]]; try (injection Ho as ->; auto 10).
  destruct Hpost as [(_ & Ho & _)|(Hso & Hpost)]; [injection Ho as ->; auto 10|].
  destruct Hpost as [(Ho & _)|(Hd & _ & [(Hge & _)|(_ & Ho)])]; [injection Ho as ->; auto 10| |discriminate].
  pose proof (dest_ok_end _ _ _ _ Hwm (load_addr_lt (seen f k) _ Hoff) Hd) as Hlt. change (2 ^ 64) with two64 in Hlt. lia.
Qed.

(** Without faults and short reads the error is determined, first failing test first; memory is
    untouched unless the payload itself did not fit. *)
Theorem C37_bz_error_kind : forall be off highmem r m m' o,
  bz_runs be off highmem r m m' o -> ~ short_or_fault r ->
  let f := rd_data r in
  (~ bz_header_good f -> o = Err (LBz InvalidBzImage) /\ m' = m) /\
  (bz_header_good f -> lenN f < bz_setup_size f -> o = Err (LBz BzUnderflow) /\ m' = m) /\
  (bz_header_good f -> bz_setup_size f <= lenN f -> ~ bz_highmem_ok f highmem ->
     o = Err InvalidKernelStartAddress /\ m' = m) /\
  (bz_header_good f -> bz_setup_size f <= lenN f -> bz_highmem_ok f highmem ->
     ~ dest_ok be m (bz_load_addr f off) (lenN (bz_payload f)) -> o = Err (LBz ReadBzImageCompressedKernel)).
Proof.
  intros until o. intros H Hq. use_bz H. destruct Hpost as [(Hs & _)|(k & Hk & Hpost)]; [contradiction|].
  assert (Hq1 : ~ seek_trouble r) by (intros X; apply Hq; exact (seek_short _ X)).
  assert (Hq2 : forall b, ~ read_trouble b r) by (intros b X; apply Hq; exact (trouble_short b _ (rtrouble_io _ _ X))).
  destruct Hk as [-> |Hk]; [|exfalso; apply Hq; right; exact Hk]. cbv zeta. set (f := rd_data r) in *.
  assert (Hpl : bz_setup_size f <= lenN f -> lenN (bz_payload f) = lenN f - bz_setup_size f).
  { intros Hle. unfold bz_payload. rewrite part_slice, lenN_slice. lia. }
  assert (Ehm : forall h, bz_highmem_ok (seen f 123) h <-> bz_highmem_ok f h).
  { intros h. unfold bz_highmem_ok. rewrite seen_code32 by lia. reflexivity. }
  assert (Ela : bz_load_addr (seen f 123) off = bz_load_addr f off).
  { unfold bz_load_addr. rewrite seen_code32 by lia. reflexivity. }
  rewrite (seen_header_good f 123), seen_setup_size, Ehm, Ela in Hpost by lia.
  destruct Hpost as [(Hb & -> & ->)|[(Hg & Hl & -> & ->)|[(Hg & Hl & Hh & -> & ->)|(Hg & Hl & Hh & Hpost)]]].
  - split; [auto|]. split; [|split]; intros; contradiction.
  - split; [intros; contradiction|]. split; [auto|]. split; intros; lia.
  - split; [intros; contradiction|]. split; [intros; lia|]. split; [auto|]. intros; contradiction.
  - split; [intros; contradiction|]. split; [intros; lia|]. split; [intros; contradiction|]. intros _ _ _. rewrite Hpl by assumption. intros Hd.
    destruct Hpost as [(Hs & _)|(_ & [(-> & _)|(Hd' & _)])]; contradiction || reflexivity.
Qed.

Example C37_cases : forall be,
  (exists m', bz_runs be None None (plain_reader (zeros 620)) demo_mem m' (Err (LBz InvalidBzImage))) /\
  (exists m', bz_runs be None None (plain_reader (part demo_bz 0 1535)) demo_mem m' (Err (LBz BzUnderflow))) /\
  (exists m', bz_runs be None (Some 0x1000001) (plain_reader demo_bz) demo_mem m' (Err InvalidKernelStartAddress)) /\
  (exists m', bz_runs be (Some 0xfffc) None (plain_reader demo_bz) demo_mem m' (Err (LBz ReadBzImageCompressedKernel))).
Proof.
  intros be. assert (W : forall off highmem f m' o r', lenN f < 2 ^ 63 -> (forall a, off = Some a -> a < 2 ^ 64) ->
    bz_load be off highmem (plain_reader f) demo_mem = (r', m', o) -> exists m', bz_runs be off highmem (plain_reader f) demo_mem m' o).
  { intros off hm f m' o r' H1 H2 H3. exists m'. split; [now apply plain_wf|]. split; [vm_compute; discriminate|]. split; [reflexivity|]. split; [exact H2|eauto]. }
  destruct be; (split; [|split; [|split]]; (eapply W; [reflexivity| |vm_compute; reflexivity]; intros a E; inversion E; reflexivity)).
Qed.

(** ** C38: a successful load means the file holds a whole header and setup part... *)
Theorem C38_bz_whole_header_in_file : forall be off highmem r m m' res,
  bz_runs be off highmem r m m' (Ok res) ->
  bz_header_good (rd_data r) /\ 1024 <= bz_setup_size (rd_data r) <= lenN (rd_data r) /\
  exists h, result_header res = Some h /\ lenN h = 123 /\
    (forall i, i < 33 -> nth_error h (N.to_nat i) = nth_error (rd_data r) (N.to_nat (0x1f1 + i))).
Proof.
  intros until res. intros H. apply bz_ok_header in H as (k & _ & Hg & Hl & _ & E).
  pose proof (seen_good _ _ Hg) as Hk. apply seen_header_good in Hg; [|assumption].
  pose proof (setup_size_min (rd_data r)) as Hmin. split; [exact Hg|]. split; [auto|]. eexists. split; [exact E|].
  destruct (with_code32_spec _ (kernel_load res) (header_got_len (rd_data r) k)) as (H1 & H2 & _).
  split; [exact H1|]. intros i Hi. rewrite H2 by lia. unfold header_got. cbv zeta.
  rewrite part_slice. rewrite nth_error_app1 by (pose proof (lenN_slice (rd_data r) 497 (N.min k 123)) as L; unfold lenN in *; lia).
  rewrite nth_error_slice by lia. reflexivity.
Qed.

(** ...but a source that delivers the header in pieces is also accepted, and then the rest of
    the returned header is zero and, without an explicit offset, the kernel goes to address 0:
    the number of bytes read is ignored. *)
Definition pieces_reader (f : bytes) : reader := mkReader f 0 (2 ^ 63 - 1) (fun _ => 33) (fun _ _ => false) 0.
Theorem C38_bz_short_header_refuted : exists m' res h,
  bz_runs TryAccess None None (pieces_reader demo_bz) demo_mem m' (Ok res) /\
  kernel_load res = 0 /\ bz_load_addr demo_bz None = 0x1000000 /\
  result_header res = Some h /\ nth_error h 60 = Some x00 /\ nth_error demo_bz (0x1f1 + 60)%nat = Some xaa.
Proof.
  do 3 eexists. split; [split; [unfold wf_reader; vm_compute; repeat split; discriminate|split; [vm_compute; discriminate|split; [reflexivity|split; [discriminate|]]]];
    eexists; vm_compute; reflexivity|]. repeat split; vm_compute; reflexivity.
Qed.
