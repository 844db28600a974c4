(** * Bz_proofs: the bzImage loader. *)
From Verif Require Import Base Base_proofs Io Mem SpecMem Mem_proofs Layout Loader BzImage SpecFile SpecBz File_proofs Elf_proofs Elf_proofs2.
Open Scope loader_scope.

Lemma byte_at_app f g i : byte_at (f ++ g) i = if i <? lenN f then byte_at f i else byte_at g (i - lenN f).
Proof.
  unfold byte_at. destruct (N.ltb_spec i (lenN f)) as [H|H]; unfold lenN in *.
  - rewrite nth_error_app1 by lia. reflexivity.
  - rewrite nth_error_app2 by lia. replace (N.to_nat i - length f)%nat with (N.to_nat (i - N.of_nat (length f))) by lia. reflexivity.
Qed.
Lemma byte_at_zeros n i : byte_at (zeros n) i = 0.
Proof.
  unfold byte_at. destruct (nth_error (zeros n) (N.to_nat i)) as [b|] eqn:E; [|reflexivity].
  apply nth_error_In, repeat_spec in E. now subst.
Qed.
Lemma byte_at_slice f o n i : byte_at (slice f o n) i = if i <? n then byte_at f (o + i) else 0.
Proof.
  unfold byte_at. destruct (N.ltb_spec i n) as [H|H].
  - now rewrite nth_error_slice.
  - rewrite (proj2 (nth_error_None _ _)); [reflexivity|]. pose proof (lenN_slice f o n) as Hl. unfold lenN in *. lia.
Qed.

(** The header as the model holds it, seen as part of the file. *)
Lemma header_got_byte f k i : i < 123 -> byte_at (header_got f k) i = byte_at (seen f k) (0x1f1 + i).
Proof.
  intros Hi. unfold header_got, seen. rewrite !part_slice, byte_at_app, !byte_at_slice, byte_at_zeros, lenN_slice.
  change 0x1f1 with 497. destruct (N.ltb_spec i (N.min (N.min k 123) (lenN f - 497))) as [H1|H1].
  - rewrite !(proj2 (N.ltb_lt _ _)) by lia. f_equal; lia.
  - destruct (N.ltb_spec (497 + i) (497 + k)) as [H2|H2]; [|reflexivity].
    unfold byte_at. rewrite (proj2 (nth_error_None _ _)); [reflexivity|]. unfold lenN in H1. lia.
Qed.
Lemma header_got_len f k : lenN (header_got f k) = 123.
Proof. unfold header_got. rewrite lenN_app, lenN_zeros, part_slice, lenN_slice. lia. Qed.

Lemma header_got_u16 f k i : i + 2 <= 123 -> u16at (header_got f k) i = u16at (seen f k) (0x1f1 + i).
Proof. intros H. unfold u16at. rewrite !header_got_byte by lia. now rewrite N.add_assoc. Qed.
Lemma header_got_u32 f k i : i + 4 <= 123 -> u32at (header_got f k) i = u32at (seen f k) (0x1f1 + i).
Proof. intros H. unfold u32at. rewrite !header_got_u16 by lia. now rewrite N.add_assoc. Qed.

Lemma hdr_get_field name fo t' h :
  lenN h = 123 -> locate setup_header [Fld name] = Some (fo, t') -> fo + size t' <= 123 ->
  hdr_get name h = le_dec (slice h fo (size t')).
Proof. intros Hl H1 H2. unfold hdr_get, get. now rewrite H1. Qed.

Section Fields.
Context (f : bytes) (k : N).
Let h := header_got f k.
Let g := seen f k.
Lemma hdr_setup_sects : hdr_get "setup_sects" h = bz_setup_sects g.
Proof.
  rewrite (hdr_get_field _ 0 U8) by (reflexivity || apply header_got_len || (cbn; lia)).
  change (size U8) with 1. rewrite le_dec_slice1. unfold h. rewrite header_got_byte by lia. reflexivity.
Qed.
Lemma hdr_header : hdr_get "header" h = bz_magic g.
Proof.
  rewrite (hdr_get_field _ 17 U32) by (reflexivity || apply header_got_len || (cbn; lia)).
  change (size U32) with 4. rewrite le_dec_slice4. unfold h. rewrite header_got_u32 by lia. reflexivity.
Qed.
Lemma hdr_version : hdr_get "version" h = bz_version g.
Proof.
  rewrite (hdr_get_field _ 21 U16) by (reflexivity || apply header_got_len || (cbn; lia)).
  change (size U16) with 2. rewrite le_dec_slice2. unfold h. rewrite header_got_u16 by lia. reflexivity.
Qed.
Lemma hdr_loadflags : hdr_get "loadflags" h = bz_loadflags g.
Proof.
  rewrite (hdr_get_field _ 32 U8) by (reflexivity || apply header_got_len || (cbn; lia)).
  change (size U8) with 1. rewrite le_dec_slice1. unfold h. rewrite header_got_byte by lia. reflexivity.
Qed.
Lemma hdr_code32 : hdr_get "code32_start" h = bz_code32_start g.
Proof.
  rewrite (hdr_get_field _ 35 U32) by (reflexivity || apply header_got_len || (cbn; lia)).
  change (size U32) with 4. rewrite le_dec_slice4. unfold h. rewrite header_got_u32 by lia. reflexivity.
Qed.
Lemma hdr_set_code32 a : set setup_header [Fld "code32_start"] a h = with_code32 h a.
Proof.
  assert (El : locate setup_header [Fld "code32_start"] = Some (35, U32)) by reflexivity.
  unfold set. rewrite El.
  assert (Hl : lenN h = 123) by apply header_got_len.
  unfold patch, with_code32. rewrite lenN_le_enc, !part_slice, Hl. do 2 f_equal.
  change (35 + N.of_nat (N.to_nat (size U32))) with 39.
  rewrite <- !part_slice. unfold part.
  assert (Hs : length (skipn (N.to_nat 39) h) = N.to_nat 84) by (rewrite skipn_length; unfold lenN in Hl; lia).
  rewrite !firstn_all2 by (rewrite Hs; lia). reflexivity.
Qed.
End Fields.

Lemma land1 n : N.land n 1 = n mod 2.
Proof. change 1 with (N.ones 1). rewrite N.land_ones. reflexivity. Qed.
Lemma mod2_cases n : n mod 2 = 0 \/ n mod 2 = 1.
Proof. pose proof (N.mod_lt n 2 ltac:(lia)). lia. Qed.

Lemma read_header_cases r :
  (exists r', read_header r = (r', None) /\ rd_same_env r r' /\ read_fault r) \/
  (exists r' k, read_header r = (r', Some (let h := slice (rd_data r) (rd_pos r) (N.min k 123) in h ++ zeros (123 - lenN h))) /\
     rd_same_env r r' /\ (k = 123 \/ exists i, rd_chunk r i < lenN (rd_data r))).
Proof.
  unfold read_header. change (size setup_header) with 123.
  destruct (read_volatile r 123) as [r' [bs|]] eqn:E.
  - right. pose proof (read_volatile_env _ _ _ _ E) as Henv.
    apply read_volatile_some in E as (Hk & _ & _ & _ & _ & _ & _ & Hbs & Hl).
    assert (Hpatch : patch (default_of setup_header) 0 bs = bs ++ zeros (123 - lenN bs)).
    { unfold patch. rewrite slice_zero. cbn [app]. f_equal. change (default_of setup_header) with (zeros 123). rewrite N.add_0_l, lenN_zeros.
      apply list_ext. intros i. destruct (Nat.lt_ge_cases i (N.to_nat (123 - lenN bs))) as [Hi|Hi].
      - replace i with (N.to_nat (N.of_nat i)) by lia. rewrite nth_error_slice by lia. unfold zeros.
        rewrite !nth_error_repeat by lia. reflexivity.
      - rewrite !(proj2 (nth_error_None _ _)); [reflexivity| |].
        + unfold zeros. rewrite repeat_length. lia.
        + pose proof (lenN_slice (zeros 123) (lenN bs) 123) as Hs. rewrite lenN_zeros in Hs. unfold lenN in *. lia. }
    rewrite Hpatch. unfold rd_len in Hl.
    destruct (N.ltb_spec (rd_chunk r (rd_ops r)) (lenN (rd_data r))) as [Hc|Hc].
    + exists r', (lenN bs). rewrite (N.min_l (lenN bs)) by lia. split; [|split; [exact Henv|right; eauto]].
      cbv zeta. rewrite <- Hbs. reflexivity.
    + exists r', 123. change (N.min 123 123) with 123. split; [|split; [exact Henv|left; reflexivity]].
      cbv zeta. assert (Hx : slice (rd_data r) (rd_pos r) 123 = bs); [|now rewrite Hx].
      rewrite Hbs. apply list_ext. intros i. destruct (Nat.lt_ge_cases i (N.to_nat (lenN bs))) as [Hi|Hi].
      * replace i with (N.to_nat (N.of_nat i)) by lia. rewrite !nth_error_slice by lia. reflexivity.
      * pose proof (lenN_slice (rd_data r) (rd_pos r) 123) as L1. pose proof (lenN_slice (rd_data r) (rd_pos r) (lenN bs)) as L2.
        rewrite !(proj2 (nth_error_None _ _)); [reflexivity| |]; unfold lenN in *; lia.
  - left. exists r'. split; [reflexivity|]. split; [exact (read_volatile_env _ _ _ _ E)|].
    unfold read_volatile in E. exists (rd_ops r). destruct (rd_fault r Reading (rd_ops r)); [reflexivity|discriminate].
Qed.

Lemma copy_any be r m a count r' m' o :
  wf_mem m = true -> rd_pos r + count <= lenN (rd_data r) -> read_exact_volatile_from be r m a count = (r', m', o) ->
  rd_same_env r r' /\ same_outside m m' (in_range a count) /\
  ((o = Ok tt /\ dest_ok be m a count /\
    (forall x, gm_byte m' x = put (gm_byte m) a (slice (rd_data r) (rd_pos r) count) x)) \/
   (o = Err tt /\ (read_trouble be r \/ ~ dest_ok be m a count))).
Proof.
  intros Hw Hl H. destruct (N.eq_dec count 0) as [->|Hc].
  - pose proof (rev_frame _ _ _ _ _ _ _ _ Hw H) as (Hfr & Henv & Ho). split; [exact Henv|]. split; [exact Hfr|].
    destruct Ho as [-> | ->].
    + left. split; [reflexivity|]. pose proof (rev_ok _ _ _ _ _ _ _ Hw H) as (H1 & _ & _ & H4 & _). split; [|exact H1].
      split; [exact H4|]. intros _ Eb. destruct (rev_zero_err _ _ _ _ _ _ _ H eq_refl); [congruence|assumption].
    + right. split; [reflexivity|]. apply rev_zero_fail in H as [H|[H1 H2]]; [auto|]. right. intros [_ Hd]. auto.
  - apply copy_cases in H as (Henv & Hfr & Hpost); [|exact Hw|lia]. split; [exact Henv|]. split; [exact Hfr|].
    destruct Hpost as [(-> & _ & Hb & Hp)|(-> & [Ht|[Hs|Hb]])].
    + left. split; [reflexivity|]. split; [|exact Hp]. split; [exact Hb|]. intros; contradiction.
    + right. auto.
    + lia.
    + right. split; [reflexivity|]. right. intros [Hd _]. contradiction.
Qed.

Lemma seek_short r : seek_trouble r -> short_or_fault r.
Proof. intros [i H]. left. eauto. Qed.
Lemma rfault_short r : read_fault r -> short_or_fault r.
Proof. intros [i H]. left. eauto. Qed.
Lemma trouble_short be r : io_trouble be r -> short_or_fault r.
Proof. intros [H|[H|[_ H]]]; [now apply seek_short|now apply rfault_short|right; exact H]. Qed.

(** Everything bz_load can do. *)
Definition bz_post (be : backend) (off highmem : option N) (r : reader) (m m' : gmem) (o : outcome lerror load_result) : Prop :=
  let f := rd_data r in
  (short_or_fault r /\ m' = m /\ (o = Err (LBz SeekBzImageEnd) \/ o = Err (LBz SeekBzImageHeader) \/ o = Err (LBz ReadBzImageHeader))) \/
  exists k, let g := seen f k in
    (k = 123 \/ short_reads r) /\
    ((~ bz_header_good g /\ o = Err (LBz InvalidBzImage) /\ m' = m) \/
     (bz_header_good g /\ lenN f < bz_setup_size g /\ o = Err (LBz BzUnderflow) /\ m' = m) \/
     (bz_header_good g /\ bz_setup_size g <= lenN f /\ ~ bz_highmem_ok g highmem /\ o = Err InvalidKernelStartAddress /\ m' = m) \/
     (bz_header_good g /\ bz_setup_size g <= lenN f /\ bz_highmem_ok g highmem /\
      let a := bz_load_addr g off in
      let n := lenN f - bz_setup_size g in
      (seek_trouble r /\ o = Err (LBz SeekBzImageCompressedKernel) /\ m' = m \/
       same_outside m m' (in_range a n) /\
       (o = Err (LBz ReadBzImageCompressedKernel) /\ (read_trouble be r \/ ~ dest_ok be m a n) \/
        dest_ok be m a n /\ mem_is_overlay m m' [(a, part f (bz_setup_size g) n)] /\
        (two64 <= a + n /\ o = Err MemoryOverflow \/
         a + n < two64 /\ o = Ok (mkResult a (a + n) (Some (with_code32 (header_got f k) a)) PvhEntryIgnored)))))).

Lemma bz_load_spec be off highmem r m r' m' o :
  wf_reader r -> 0x1f1 <= rd_maxpos r -> wf_mem m = true -> bz_load be off highmem r m = (r', m', o) ->
  rd_same_env r r' /\ regions m' = regions m /\ bz_post be off highmem r m m' o.
Proof.
  intros (Hl63 & Hlm & Hm64) Hmp Hw H. unfold bz_load in H. set (f := rd_data r) in *.
  rewrite lbind_lio in H.
  destruct (seek_end_cases r) as [(r1 & E1 & Henv1 & Hf)|E1]; rewrite E1 in H.
  { inversion H; subst m' o r'. split; [exact Henv1|]. split; [reflexivity|]. left. split; [exact (seek_short _ Hf)|auto]. }
  set (r1 := rd_step r (rd_len r)) in *. assert (Henv1 : rd_same_env r r1) by apply rd_same_env_step.
  rewrite lbind_lio in H.
  destruct (seek_start_cases r1 0x1F1) as [(r2 & E2 & Henv2 & Hwhy)|[E2 _]]; rewrite E2 in H.
  { inversion H; subst m' o r'. split; [exact (rd_same_env_trans _ _ _ Henv1 Henv2)|]. split; [reflexivity|]. left.
    destruct Hwhy as [Hx|Hx]; [change (rd_maxpos r1) with (rd_maxpos r) in Hx; lia|].
    split; [exact (seek_short _ (env_seek _ _ Henv1 Hx))|auto]. }
  set (r2 := rd_step r1 0x1F1) in *.
  assert (Henv2 : rd_same_env r r2) by exact (rd_same_env_trans _ _ _ Henv1 (rd_same_env_step _ _)).
  rewrite lbind_lio in H.
  destruct (read_header_cases r2) as [(r3 & E3 & Henv3 & Hx)|(r3 & k & E3 & Henv3 & Hk)]; rewrite E3 in H.
  { inversion H; subst m' o r'. split; [exact (rd_same_env_trans _ _ _ Henv2 Henv3)|]. split; [reflexivity|]. left.
    split; [exact (rfault_short _ (env_rfault _ _ Henv2 Hx))|auto]. }
  assert (Henv3' : rd_same_env r r3) by exact (rd_same_env_trans _ _ _ Henv2 Henv3).
  change (rd_data r2) with f in *. change (rd_pos r2) with 0x1f1 in *. cbv zeta in H. rewrite <- part_slice in H.
  change (part f 0x1f1 (N.min k 123) ++ zeros (123 - lenN (part f 0x1f1 (N.min k 123)))) with (header_got f k) in H.
  rewrite hdr_header, hdr_version, hdr_loadflags, hdr_setup_sects, hdr_code32, hdr_set_code32 in H.
  set (g := seen f k) in *.
  assert (Hk' : k = 123 \/ short_reads r) by exact Hk.
  assert (Hpk : forall P : Prop, P -> P) by auto.
  assert (Hstop : forall rr e, rd_same_env r rr ->
     (~ bz_header_good g /\ e = LBz InvalidBzImage) \/
     (bz_header_good g /\ lenN f < bz_setup_size g /\ e = LBz BzUnderflow) \/
     (bz_header_good g /\ bz_setup_size g <= lenN f /\ ~ bz_highmem_ok g highmem /\ e = InvalidKernelStartAddress) ->
     (rr, m, @Err lerror load_result e) = (r', m', o) ->
     rd_same_env r r' /\ regions m' = regions m /\ bz_post be off highmem r m m' o).
  { intros rr e He Hc E. inversion E; subst m' o r'. split; [exact He|]. split; [reflexivity|]. right. exists k. cbv zeta. fold f g.
    split; [exact Hk'|]. destruct Hc as [(? & ->)|[(? & ? & ->)|(? & ? & ? & ->)]].
    - left. auto.
    - right; left. auto.
    - right; right; left. auto. }
  destruct (N.eqb_spec (bz_magic g) 0x53726448) as [Em|Em]; cbn [negb] in H.
  2:{ eapply Hstop; [exact Henv3'|left; split; [|reflexivity]|exact H]. intros (G & _). contradiction. }
  destruct (N.ltb_spec (bz_version g) 0x200) as [Ev|Ev]; cbn [orb] in H.
  { eapply Hstop; [exact Henv3'|left; split; [|reflexivity]|exact H]. intros (_ & G & _). lia. }
  rewrite land1 in H.
  destruct (N.eqb_spec (bz_loadflags g mod 2) 0) as [Ef|Ef].
  { eapply Hstop; [exact Henv3'|left; split; [|reflexivity]|exact H]. intros (_ & _ & G). lia. }
  assert (Hgood : bz_header_good g).
  { unfold bz_header_good. split; [assumption|]. split; [assumption|]. destruct (mod2_cases (bz_loadflags g)); [contradiction|assumption]. }
  assert (Hsb : bz_setup_sects g < 256) by apply byte_at_lt.
  set (s := if bz_setup_sects g =? 0 then 4 else bz_setup_sects g) in *.
  assert (Hs : 1 <= s < 256) by (unfold s; destruct (N.eqb_spec (bz_setup_sects g) 0); lia).
  rewrite checked_add_lt in H by (unfold two64; lia). unfold checked_mul in H.
  rewrite (proj2 (N.ltb_lt _ _)) in H by (unfold two64; lia).
  cbn [ok_or] in H. rewrite lbind_ok in H.
  assert (Hss : (s + 1) * 512 = bz_setup_size g) by (unfold bz_setup_size; fold s; lia).
  rewrite Hss in H. assert (Hsz : bz_setup_size g <= 512 * 256) by lia.
  unfold rd_len in H. fold f in H. unfold checked_sub in H.
  destruct (N.leb_spec (bz_setup_size g) (lenN f)) as [Hle|Hgt].
  2:{ cbn [ok_or] in H. rewrite lbind_err in H. eapply Hstop; [exact Henv3'|right; left; auto|exact H]. }
  cbn [ok_or] in H. rewrite lbind_ok in H.
  assert (Hh : (match highmem with Some h => bz_code32_start g <? h | None => false end = false /\ bz_highmem_ok g highmem) \/
               (match highmem with Some h => bz_code32_start g <? h | None => false end = true /\ ~ bz_highmem_ok g highmem)).
  { destruct highmem as [h|]; cbn; [|auto]. destruct (N.ltb_spec (bz_code32_start g) h); [right|left]; (split; [reflexivity|lia]). }
  destruct Hh as [[Eh Hh]|[Eh Hh]]; rewrite Eh in H.
  2:{ eapply Hstop; [exact Henv3'|right; right; auto|exact H]. }
  fold (bz_load_addr g off) in H. set (a := bz_load_addr g off) in *. set (n := lenN f - bz_setup_size g) in *.
  assert (Hfin : forall rr mm oo, rd_same_env r rr -> regions mm = regions m ->
    (seek_trouble r /\ oo = Err (LBz SeekBzImageCompressedKernel) /\ mm = m \/
     same_outside m mm (in_range a n) /\
       (oo = Err (LBz ReadBzImageCompressedKernel) /\ (read_trouble be r \/ ~ dest_ok be m a n) \/
        dest_ok be m a n /\ mem_is_overlay m mm [(a, part f (bz_setup_size g) n)] /\
        (two64 <= a + n /\ oo = Err MemoryOverflow \/
         a + n < two64 /\ oo = Ok (mkResult a (a + n) (Some (with_code32 (header_got f k) a)) PvhEntryIgnored)))) ->
    (rr, mm, oo) = (r', m', o) -> rd_same_env r r' /\ regions m' = regions m /\ bz_post be off highmem r m m' o).
  { intros rr mm oo He Hr Hc E. inversion E; subst rr mm oo. split; [exact He|]. split; [exact Hr|]. right. exists k. cbv zeta. fold f g.
    split; [exact Hk'|]. right; right; right. split; [exact Hgood|]. split; [exact Hle|]. split; [exact Hh|]. fold a n. exact Hc. }
  rewrite lbind_lio in H.
  destruct (seek_start_cases r3 (bz_setup_size g)) as [(r4 & E4 & Henv4 & Hwhy)|[E4 _]]; rewrite E4 in H.
  { eapply Hfin; [exact (rd_same_env_trans _ _ _ Henv3' Henv4)|reflexivity| |exact H]. left.
    destruct Hwhy as [Hx|Hx].
    - destruct Henv3' as (_ & Emx & _). rewrite Emx in Hx. lia.
    - split; [exact (env_seek _ _ Henv3' Hx)|auto]. }
  set (r4 := rd_step r3 (bz_setup_size g)) in *.
  assert (Henv4 : rd_same_env r r4) by exact (rd_same_env_trans _ _ _ Henv3' (rd_same_env_step _ _)).
  assert (Ed4 : rd_data r4 = f) by (destruct Henv4 as (Ed & _); exact Ed).
  unfold lbind at 1 in H. unfold lcopy in H.
  destruct (read_exact_volatile_from be r4 m a n) as [[r5 m5] o5] eqn:Ec.
  apply copy_any in Ec; [|exact Hw|rewrite Ed4; change (rd_pos r4) with (bz_setup_size g); unfold n; lia].
  destruct Ec as (Henv5 & Hfr & Hpost). rewrite Ed4 in Hpost. change (rd_pos r4) with (bz_setup_size g) in Hpost.
  pose proof (rd_same_env_trans _ _ _ Henv4 Henv5) as Henv5'.
  destruct Hpost as [(-> & Hd & Hput)|(-> & Hwhy)].
  2:{ eapply Hfin; [exact Henv5'|apply Hfr| |exact H]. right. split; [exact Hfr|]. left. split; [reflexivity|].
      destruct Hwhy as [Ht|Hd]; [left|right; exact Hd]. exact (env_rtrouble _ _ _ Henv4 Ht). }
  assert (Hov : mem_is_overlay m m5 [(a, part f (bz_setup_size g) n)]).
  { split; [apply Hfr|]. intros x. rewrite Hput. unfold overlay. cbn [fold_left fst snd]. now rewrite part_slice. }
  unfold checked_add in H. destruct (N.ltb_spec (a + n) two64) as [Hlt|Hge]; cbn [ok_or] in H.
  - rewrite lbind_ok in H. eapply Hfin; [exact Henv5'|apply Hfr| |exact H]. right. split; [exact Hfr|]. right. auto.
  - rewrite lbind_err in H. eapply Hfin; [exact Henv5'|apply Hfr| |exact H]. right. split; [exact Hfr|]. right. auto.
Qed.
