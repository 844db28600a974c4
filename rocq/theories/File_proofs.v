(** * File_proofs: integers at file offsets, struct fields, source operations. *)
From Verif Require Import Base Base_proofs Io Mem SpecMem Mem_proofs Layout SpecFile.

Lemma part_slice f o n : part f o n = slice f o n.
Proof.
  unfold part. destruct (N.leb_spec o (lenN f)).
  - now rewrite slice_eq.
  - rewrite slice_past by lia. rewrite skipn_all2 by (unfold lenN in *; lia). apply firstn_nil.
Qed.

Lemma slice_one (f : bytes) o : slice f o 1 = match nth_error f (N.to_nat o) with Some b => [b] | None => [] end.
Proof.
  destruct (nth_error f (N.to_nat o)) as [b|] eqn:E.
  - assert (N.to_nat o < length f)%nat by (apply nth_error_Some; congruence).
    assert (lenN (slice f o 1) = 1) as Hl by (rewrite lenN_slice; unfold lenN; lia).
    pose proof (nth_error_slice f o 1 0) as H0.
    destruct (slice f o 1) as [|x [|y l]]; try (unfold lenN in Hl; cbn in Hl; lia).
    specialize (H0 ltac:(lia)). rewrite N.add_0_r, E in H0. change (N.to_nat 0) with 0%nat in H0. cbn in H0. congruence.
  - apply nth_error_None in E. apply slice_past. unfold lenN. lia.
Qed.

Lemma le_dec_slice1 f o : le_dec (slice f o 1) = byte_at f o.
Proof.
  rewrite slice_one. unfold byte_at. destruct (nth_error f (N.to_nat o)); cbn; lia.
Qed.

Lemma slice_split_any (f : bytes) o a b : slice f o (a + b) = slice f o a ++ slice f (o + a) b.
Proof.
  rewrite <- !part_slice. unfold part.
  replace (N.to_nat (a + b)) with (N.to_nat a + N.to_nat b)%nat by lia.
  replace (N.to_nat (o + a)) with (N.to_nat o + N.to_nat a)%nat by lia.
  rewrite <- skipn_skipn_N.
  set (g := skipn (N.to_nat o) f). generalize (N.to_nat a) as k. generalize (N.to_nat b) as j. intros j k. clearbody g. clear.
  revert g. induction k as [|k IH]; intros g; [reflexivity|]. destruct g as [|x g]; [cbn; now rewrite firstn_nil|].
  cbn. now rewrite IH.
Qed.

Lemma le_dec_slice_app f o a b :
  le_dec (slice f o (a + b)) = le_dec (slice f o a) + 256 ^ a * le_dec (slice f (o + a) b).
Proof.
  rewrite slice_split_any, le_dec_app. destruct (N.leb_spec (o + a) (lenN f)).
  - rewrite lenN_slice. replace (N.min a (lenN f - o)) with a by lia. reflexivity.
  - rewrite (slice_past f (o + a) b) by lia. cbn. lia.
Qed.

Lemma le_dec_slice2 f o : le_dec (slice f o 2) = u16at f o.
Proof. change 2 with (1 + 1). rewrite le_dec_slice_app, !le_dec_slice1. reflexivity. Qed.
Lemma le_dec_slice4 f o : le_dec (slice f o 4) = u32at f o.
Proof. change 4 with (2 + 2). rewrite le_dec_slice_app, !le_dec_slice2. reflexivity. Qed.
Lemma le_dec_slice8 f o : le_dec (slice f o 8) = u64at f o.
Proof. change 8 with (4 + 4). rewrite le_dec_slice_app, !le_dec_slice4. reflexivity. Qed.

Lemma byte_at_lt f o : byte_at f o < 256.
Proof. unfold byte_at. destruct (nth_error _ _); [apply n8_lt|lia]. Qed.
Lemma u16at_lt f o : u16at f o < 65536.
Proof. unfold u16at. pose proof (byte_at_lt f o). pose proof (byte_at_lt f (o + 1)). lia. Qed.
Lemma u32at_lt f o : u32at f o < 2 ^ 32.
Proof. unfold u32at. pose proof (u16at_lt f o). pose proof (u16at_lt f (o + 2)). change (2 ^ 32) with 4294967296. lia. Qed.
Lemma u64at_lt f o : u64at f o < two64.
Proof.
  unfold u64at, two64. pose proof (u32at_lt f o). pose proof (u32at_lt f (o + 4)).
  change (2 ^ 32) with 4294967296 in *. lia.
Qed.

(** Field of a struct read as [n] bytes at [o]. *)
Lemma get_slice t path fo t' f o n :
  locate t path = Some (fo, t') -> fo + size t' <= n -> o + n <= lenN f ->
  get t path (slice f o n) = le_dec (slice f (o + fo) (size t')).
Proof. intros H1 H2 H3. unfold get. rewrite H1, slice_slice by assumption. reflexivity. Qed.

(** ** source operations *)
Lemma seek_start_cases r p :
  (exists r', seek_start r p = (r', None) /\ rd_same_env r r' /\ (rd_maxpos r < p \/ seek_trouble r)) \/
  (seek_start r p = (rd_step r p, Some p) /\ p <= rd_maxpos r).
Proof.
  unfold seek_start. destruct (rd_fault r Seeking (rd_ops r)) eqn:Ef.
  - left. eexists. split; [reflexivity|]. split; [apply rd_same_env_step|unfold seek_trouble; eauto].
  - destruct (N.ltb_spec (rd_maxpos r) p).
    + left. eexists. split; [reflexivity|]. split; [apply rd_same_env_step|auto].
    + right. auto.
Qed.

Lemma seek_end_cases r :
  (exists r', seek_end r = (r', None) /\ rd_same_env r r' /\ seek_trouble r) \/
  (seek_end r = (rd_step r (rd_len r), Some (rd_len r))).
Proof.
  unfold seek_end. destruct (rd_fault r Seeking (rd_ops r)) eqn:Ef.
  - left. eexists. split; [reflexivity|]. split; [apply rd_same_env_step|unfold seek_trouble; eauto].
  - right. reflexivity.
Qed.

Lemma seek_cur_cases r d :
  let p := (Z.of_N (rd_pos r) + d)%Z in
  (exists r', seek_cur r d = (r', None) /\ rd_same_env r r' /\
     ((p < 0)%Z \/ rd_maxpos r < Z.to_N p \/ seek_trouble r)) \/
  (seek_cur r d = (rd_step r (Z.to_N p), Some (Z.to_N p)) /\ (0 <= p)%Z /\ Z.to_N p <= rd_maxpos r).
Proof.
  cbv zeta. unfold seek_cur. destruct (rd_fault r Seeking (rd_ops r)) eqn:Ef.
  - left. eexists. split; [reflexivity|]. split; [apply rd_same_env_step|unfold seek_trouble; eauto].
  - destruct (Z.ltb_spec (Z.of_N (rd_pos r) + d) 0); cbn [orb].
    + left. eexists. split; [reflexivity|]. split; [apply rd_same_env_step|auto].
    + destruct (N.ltb_spec (rd_maxpos r) (Z.to_N (Z.of_N (rd_pos r) + d))).
      * left. eexists. split; [reflexivity|]. split; [apply rd_same_env_step|auto].
      * right. auto.
Qed.

Lemma read_exact_cases r n :
  (exists r', read_exact r n = (r', None) /\ rd_same_env r r' /\
     (lenN (rd_data r) < rd_pos r + n \/ read_fault r)) \/
  (read_exact r n = (rd_step r (rd_pos r + n), Some (slice (rd_data r) (rd_pos r) n)) /\
   rd_pos r + n <= lenN (rd_data r)).
Proof.
  unfold read_exact. destruct (rd_fault r Reading (rd_ops r)) eqn:Ef.
  - left. eexists. split; [reflexivity|]. split; [apply rd_same_env_step|unfold read_fault; eauto].
  - unfold rd_len. destruct (N.ltb_spec (lenN (rd_data r)) (rd_pos r + n)).
    + left. eexists. split; [reflexivity|]. split; [apply rd_same_env_step|auto].
    + right. auto.
Qed.

Lemma env_seek r r' : rd_same_env r r' -> seek_trouble r' -> seek_trouble r.
Proof. intros (_ & _ & _ & E) (i & H). exists i. now rewrite <- E. Qed.
Lemma env_rfault r r' : rd_same_env r r' -> read_fault r' -> read_fault r.
Proof. intros (_ & _ & _ & E) (i & H). exists i. now rewrite <- E. Qed.
Lemma env_rtrouble be r r' : rd_same_env r r' -> read_trouble be r' -> read_trouble be r.
Proof.
  intros Henv [H|(Hb & i & H)].
  - left. exact (env_rfault _ _ Henv H).
  - right. destruct Henv as (Ed & _ & Ec & _). split; [exact Hb|]. exists i. now rewrite <- Ec, <- Ed.
Qed.
Lemma env_trouble be r r' : rd_same_env r r' -> io_trouble be r' -> io_trouble be r.
Proof. intros Henv [H|H]; [left; exact (env_seek _ _ Henv H)|right; exact (env_rtrouble _ _ _ Henv H)]. Qed.

Lemma seek_io be r : seek_trouble r -> io_trouble be r.
Proof. now left. Qed.
Lemma rfault_io be r : read_fault r -> io_trouble be r.
Proof. intros H. right. now left. Qed.
Lemma rtrouble_io be r : read_trouble be r -> io_trouble be r.
Proof. now right. Qed.
Lemma rfault_rtrouble be r : read_fault r -> read_trouble be r.
Proof. now left. Qed.

Lemma env_wf r r' : rd_same_env r r' -> wf_reader r -> wf_reader r'.
Proof. intros (Ed & Em & _) (H1 & H2 & H3). unfold wf_reader. rewrite Ed, Em. auto. Qed.

(** Either every operation is well behaved or there is trouble; both are needed only for finitely many
    operations, but the oracles are total functions, so the case split is on the first failure met
    in the copy.  This lemma states what a copy into guest memory does. *)
Lemma no_trouble_iff be r : ~ io_trouble be r <-> never_faults r /\ reads_enough be r.
Proof.
  unfold io_trouble, read_trouble, never_faults. split.
  - intros H. split.
    + intros [|] i; destruct (rd_fault r _ i) eqn:E; try reflexivity; exfalso; apply H.
      * left. exists i. exact E.
      * right; left. exists i. exact E.
    + destruct be; [exact I|]. intros i. unfold rd_len.
      destruct (N.leb_spec (lenN (rd_data r)) (rd_chunk r i)); [assumption|]. exfalso. apply H. right; right. eauto.
  - intros [H1 H2] [(i & E)|[(i & E)|(-> & i & E)]].
    + rewrite H1 in E. discriminate.
    + rewrite H1 in E. discriminate.
    + specialize (H2 i). unfold rd_len in H2. lia.
Qed.

(** ** why a copy into guest memory fails *)
Lemma read_loop_fail be fuel : forall r m cur left total r' m' o,
  wf_mem m = true -> (read_measure be r m cur < fuel)%nat -> 0 < left ->
  read_loop be fuel r m cur left total = (r', m', o) -> o <> Ok (total + left) ->
  read_trouble be r \/ rd_len r < rd_pos r + left \/ ~ range_backed m cur left.
Proof.
  induction fuel as [|fuel IH]; intros r m cur left total r' m' o Hw Hf Hleft H Ho; [lia|].
  cbn [read_loop] in H.
  destruct (find_region m cur) as [rg|] eqn:Ef.
  2:{ right; right. apply find_region_none in Ef. intros Hb. apply Ef. apply Hb; lia. }
  apply find_region_some in Ef as (Hin & Hr1 & Hr2).
  destruct (wf_region m rg Hw Hin) as [Hlen Hend].
  set (n := N.min (r_base rg + r_len rg - cur) left) in *.
  destruct (read_volatile r n) as [r1 [bs|]] eqn:Er.
  2:{ left. left. exists (rd_ops r). unfold read_volatile in Er. destruct (rd_fault r Reading (rd_ops r)); [reflexivity|discriminate]. }
  pose proof (read_volatile_env _ _ _ _ Er) as Henv.
  apply read_volatile_some in Er as (Hk & Hdata & Hpos & _ & _ & _ & _ & Hbs & Hkeq).
  destruct (N.ltb_spec (rd_len r) (rd_pos r + left)) as [Hs|Hs]; [auto|].
  set (adv := match be with TryAccess => lenN bs | GetSlices => n end) in *.
  assert (read_trouble be r \/ adv = lenN bs) as [Ht|Hadv].
  { unfold adv. destruct be; [auto|]. destruct (N.ltb_spec (rd_chunk r (rd_ops r)) (rd_len r)) as [Hc|Hc].
    - left; right. split; [reflexivity|]. exists (rd_ops r). exact Hc.
    - right. lia. }
  { auto. }
  rewrite Hadv in H.
  destruct (N.eqb_spec (lenN bs) 0) as [Hz|Hz]; [lia|].
  destruct (N.eqb_spec (lenN bs) left) as [Hall|Hpart].
  { injection H as <- <- <-. exfalso. apply Ho. f_equal. lia. }
  unfold next_addr in H. rewrite (proj2 (N.ltb_lt _ _)) in H by lia.
  apply IH in H.
  - destruct H as [H|[H|H]].
    + left. eapply env_rtrouble; eassumption.
    + right; left. unfold rd_len in *. rewrite Hdata, Hpos in H. lia.
    + right; right. intros Hb. apply H. intros x Hx1 Hx2.
      apply (proj2 (backed_regions m (mem_store m cur bs) x eq_refl)). apply Hb; lia.
  - exact Hw.
  - unfold read_measure in *. destruct be.
    + unfold rd_len in *. rewrite Hdata, Hpos. lia.
    + cbn [mem_store regions]. pose proof (regions_after_dec (regions m) cur rg Hin Hr2).
      replace (cur + lenN bs) with (r_base rg + r_len rg) by (unfold adv in Hadv; lia). lia.
  - lia.
  - intros E. apply Ho. rewrite E. f_equal. lia.
Qed.

Lemma rev_fail be r m a count r' m' :
  wf_mem m = true -> 0 < count -> read_exact_volatile_from be r m a count = (r', m', Err tt) ->
  read_trouble be r \/ lenN (rd_data r) < rd_pos r + count \/ ~ range_backed m a count.
Proof.
  intros Hw Hc H. rewrite rev_unfold in H by (intros _; lia).
  destruct (read_loop _ _ _ _ _ _ _) as [[r1 m1] o1] eqn:E.
  apply read_loop_fail in E; [exact E|exact Hw|apply read_measure_fuel|exact Hc|].
  intros ->. rewrite (proj2 (N.eqb_eq (0 + count) count)) in H by lia. discriminate.
Qed.

Lemma rev_zero_fail be r m a r' m' :
  read_exact_volatile_from be r m a 0 = (r', m', Err tt) -> read_trouble be r \/ (be = TryAccess /\ ~ backed m a).
Proof.
  intros H. destruct be; [|discriminate]. cbn in H.
  destruct (find_region m a) as [rg|] eqn:Ef.
  - left. rewrite N.min_0_r in H. destruct (read_volatile r 0) as [r1 [bs|]] eqn:E.
    + exfalso. apply read_volatile_some in E as (Hk & _). assert (lenN bs = 0) as E0 by lia. rewrite E0 in H.
      change (0 =? 0) with true in H. cbn in H. change (0 =? 0) with true in H. discriminate.
    + left. exists (rd_ops r). unfold read_volatile in E. destruct (rd_fault r Reading (rd_ops r)); [reflexivity|discriminate].
  - right. split; [reflexivity|]. now apply find_region_none.
Qed.

(** The copy step as one case analysis. *)
Lemma copy_cases be r m a count r' m' o :
  wf_mem m = true -> 0 < count -> read_exact_volatile_from be r m a count = (r', m', o) ->
  rd_same_env r r' /\ same_outside m m' (in_range a count) /\
  ((o = Ok tt /\ rd_pos r + count <= lenN (rd_data r) /\ range_backed m a count /\
    (forall x, gm_byte m' x = put (gm_byte m) a (slice (rd_data r) (rd_pos r) count) x)) \/
   (o = Err tt /\ (read_trouble be r \/ lenN (rd_data r) < rd_pos r + count \/ ~ range_backed m a count))).
Proof.
  intros Hw Hc H. pose proof (rev_frame _ _ _ _ _ _ _ _ Hw H) as (Hfr & Henv & Ho).
  split; [exact Henv|]. split; [exact Hfr|]. destruct Ho as [-> | ->].
  - left. apply rev_ok in H as (H1 & H2 & H3 & H4 & H5); [|exact Hw]. split; [reflexivity|]. split; [now apply H3|]. split; assumption.
  - right. split; [reflexivity|]. eapply rev_fail; eassumption.
Qed.
