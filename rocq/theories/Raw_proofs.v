(** Lemmas about raw sources: the loops, and that every run on a raw source is a run on a [reader]. *)
From Verif Require Import Base Base_proofs Io Mem Layout Loader Elf BzImage Pe SpecFile File_proofs Source RawIo.

(** ** The loops *)
Definition deliver (s : raw) (n : N) : raw * option bytes :=
  match snd (rw_script s (rw_ops s)) with
  | Fails => (answered s (rw_pos s), None)
  | Gives k =>
      let c := N.min n (N.min (lenN (rw_data s) - rw_pos s) (N.max 1 k)) in
      (answered s (rw_pos s + c), Some (slice (rw_data s) (rw_pos s) c))
  end.

Lemma retry_deliver fuel : forall s n, (fst (rw_script s (rw_ops s)) - rw_intr s <= fuel)%nat -> retry_upto fuel s n = deliver s n.
Proof.
  induction fuel as [|fuel IH]; intros s n Hf; cbn [retry_upto]; unfold raw_read, deliver;
    destruct (rw_script s (rw_ops s)) as [i a] eqn:E; cbn [fst snd] in *.
  - destruct (Nat.ltb_spec (rw_intr s) i); [lia|]. destruct a; reflexivity.
  - destruct (Nat.ltb_spec (rw_intr s) i).
    + rewrite IH; unfold deliver; cbn; rewrite E; [reflexivity|cbn; lia].
    + destruct a; reflexivity.
Qed.

Lemma raw_retry_deliver s n : raw_retry s n = deliver s n.
Proof. apply retry_deliver. lia. Qed.

Lemma retry_loop s n : raw_retry s n = match raw_read s n with
  | (s', Interrupted) => raw_retry s' n
  | (s', Failed) => (s', None)
  | (s', Got bs) => (s', Some bs)
  end.
Proof.
  rewrite raw_retry_deliver. unfold raw_read, deliver. destruct (rw_script s (rw_ops s)) as [i a] eqn:E; cbn [fst snd].
  destruct (Nat.ltb_spec (rw_intr s) i).
  - rewrite raw_retry_deliver. unfold deliver. cbn. rewrite E. reflexivity.
  - destruct a; reflexivity.
Qed.

Lemma calls_mono sc : forall a b i, (a <= b)%nat -> (calls sc i a <= calls sc i b)%nat.
Proof.
  intros a. induction a as [|a IH]; intros b i H; cbn [calls]; [lia|].
  destruct b as [|b]; [lia|]. cbn [calls]. specialize (IH b (S i)). lia.
Qed.

Definition need (s : raw) (n : N) : nat :=
  (calls (rw_script s) (rw_ops s) (N.to_nat n) - Nat.min (rw_intr s) (fst (rw_script s (rw_ops s))))%nat.

Lemma need_pos s n : 0 < n -> (0 < need s n)%nat.
Proof.
  intros H. unfold need. destruct (N.to_nat n) as [|k] eqn:E; [lia|]. cbn [calls]. lia.
Qed.
Lemma need_intr s n i a : rw_script s (rw_ops s) = (i, a) -> (rw_intr s < i)%nat -> 0 < n ->
  need s n = S (need (mkRaw (rw_data s) (rw_pos s) (rw_maxpos s) (rw_script s) (rw_ops s) (S (rw_intr s))) n).
Proof.
  intros E Hi Hn. unfold need. cbn [rw_script rw_ops rw_intr]. destruct (N.to_nat n) as [|k] eqn:En; [lia|]. cbn [calls]. rewrite E. cbn [fst].
  rewrite !Nat.min_l by lia. lia.
Qed.
Lemma need_got s n p (k : N) : 0 < k -> k <= n -> (rw_intr s >= fst (rw_script s (rw_ops s)))%nat ->
  (S (need (answered s p) (n - k)) <= need s n)%nat.
Proof.
  intros Hk Hn Hi. unfold need. cbn [rw_script rw_ops rw_intr answered]. destruct (N.to_nat n) as [|j] eqn:En; [lia|]. cbn [calls].
  pose proof (calls_mono (rw_script s) (N.to_nat (n - k)) j (S (rw_ops s))). lia.
Qed.

Lemma exact_fuel f1 : forall f2 s n, (need s n <= f1)%nat -> (need s n <= f2)%nat -> exact_upto f1 s n = exact_upto f2 s n.
Proof.
  induction f1 as [|f1 IH]; intros f2 s n H1 H2.
  - destruct (N.eqb_spec n 0) as [->|Hn]; [destruct f2; reflexivity|]. pose proof (need_pos s n). lia.
  - destruct (N.eqb_spec n 0) as [->|Hn]; [destruct f2; reflexivity|].
    destruct f2 as [|f2]; [pose proof (need_pos s n); lia|].
    cbn [exact_upto]. destruct (N.eqb_spec n 0); [lia|].
    unfold raw_read. destruct (rw_script s (rw_ops s)) as [i a] eqn:E.
    destruct (Nat.ltb_spec (rw_intr s) i).
    + rewrite (need_intr s n i a) in H1, H2 by (auto; lia). apply IH; lia.
    + destruct a as [|k]; [reflexivity|].
      set (c := N.min n (N.min (lenN (rw_data s) - rw_pos s) (N.max 1 k))).
      destruct (slice (rw_data s) (rw_pos s) c) as [|b bs] eqn:Eb; [reflexivity|]. rewrite <- Eb.
      pose proof (lenN_slice (rw_data s) (rw_pos s) c) as Hl. rewrite Eb, lenN_cons in Hl. rewrite Eb, lenN_cons.
      pose proof (need_got s n (rw_pos s + c) (1 + lenN bs) ltac:(lia) ltac:(lia)) as Hg. rewrite E in Hg. cbn [fst] in Hg. specialize (Hg ltac:(lia)).
      rewrite (IH f2); [reflexivity|lia|lia].
Qed.

Lemma exact_enough s n : (need s n <= calls (rw_script s) (rw_ops s) (N.to_nat n))%nat.
Proof. unfold need. lia. Qed.

Lemma read_exact_loop s n : raw_read_exact s n =
  if n =? 0 then (s, Some [])
  else match raw_read s n with
       | (s', Interrupted) => raw_read_exact s' n
       | (s', Failed) => (s', None)
       | (s', Got []) => (s', None)
       | (s', Got bs) =>
           match raw_read_exact s' (n - lenN bs) with
           | (s'', Some rest) => (s'', Some (bs ++ rest))
           | (s'', None) => (s'', None)
           end
       end.
Proof.
  unfold raw_read_exact at 1. rewrite (exact_fuel _ (S (calls (rw_script s) (rw_ops s) (N.to_nat n))) s n) by (pose proof (exact_enough s n); lia).
  cbn [exact_upto]. destruct (N.eqb_spec n 0) as [->|Hn]; [reflexivity|].
  unfold raw_read. destruct (rw_script s (rw_ops s)) as [i a] eqn:E.
  destruct (Nat.ltb_spec (rw_intr s) i).
  - apply exact_fuel; [|apply exact_enough]. pose proof (need_intr s n i a E ltac:(assumption) ltac:(lia)). pose proof (exact_enough s n). lia.
  - destruct a as [|k]; [reflexivity|].
    set (c := N.min n (N.min (lenN (rw_data s) - rw_pos s) (N.max 1 k))).
    destruct (slice (rw_data s) (rw_pos s) c) as [|b bs] eqn:Eb; [reflexivity|]. rewrite <- Eb.
    pose proof (lenN_slice (rw_data s) (rw_pos s) c) as Hl. rewrite Eb, lenN_cons in Hl. rewrite Eb, lenN_cons.
    pose proof (need_got s n (rw_pos s + c) (1 + lenN bs) ltac:(lia) ltac:(lia)) as Hg. rewrite E in Hg. cbn [fst] in Hg. specialize (Hg ltac:(lia)).
    rewrite (exact_fuel _ (calls (rw_script (answered s (rw_pos s + c))) (rw_ops (answered s (rw_pos s + c))) (N.to_nat (n - (1 + lenN bs)))));
      [reflexivity| |apply exact_enough]. pose proof (exact_enough s n). lia.
Qed.

(** What [read_exact] amounts to. *)
Definition same_raw (s s' : raw) : Prop :=
  rw_data s' = rw_data s /\ rw_maxpos s' = rw_maxpos s /\ rw_script s' = rw_script s.
Lemma same_raw_refl s : same_raw s s.
Proof. unfold same_raw. auto. Qed.
Lemma same_raw_trans a b c : same_raw a b -> same_raw b c -> same_raw a c.
Proof. unfold same_raw. intuition congruence. Qed.
Lemma same_raw_answered s p : same_raw s (answered s p).
Proof. unfold same_raw. auto. Qed.

Lemma exact_cases fuel : forall s n s' x, (need s n <= fuel)%nat -> exact_upto fuel s n = (s', x) ->
  same_raw s s' /\
  match x with
  | Some bs => bs = slice (rw_data s) (rw_pos s) n /\ rw_pos s' = rw_pos s + n /\ (0 < n -> rw_pos s + n <= lenN (rw_data s))
  | None => raw_fails s \/ lenN (rw_data s) < rw_pos s + n
  end.
Proof.
  induction fuel as [|fuel IH]; intros s n s' x Hf H.
  - destruct (N.eqb_spec n 0) as [->|Hn]; [|pose proof (need_pos s n); lia].
    cbn in H. injection H as <- <-. split; [apply same_raw_refl|]. rewrite slice_zero. split; [reflexivity|]. lia.
  - cbn [exact_upto] in H. destruct (N.eqb_spec n 0) as [->|Hn].
    { injection H as <- <-. split; [apply same_raw_refl|]. rewrite slice_zero. split; [reflexivity|]. lia. }
    unfold raw_read in H. destruct (rw_script s (rw_ops s)) as [i a] eqn:E.
    destruct (Nat.ltb_spec (rw_intr s) i).
    + rewrite (need_intr s n i a) in Hf by (auto; lia). apply IH in H; [|lia]. cbn in H. exact H.
    + destruct a as [|k].
      { injection H as <- <-. split; [apply same_raw_answered|]. left. exists (rw_ops s). rewrite E. reflexivity. }
      set (c := N.min n (N.min (lenN (rw_data s) - rw_pos s) (N.max 1 k))) in *.
      pose proof (lenN_slice (rw_data s) (rw_pos s) c) as Hl.
      assert (Hlc : lenN (slice (rw_data s) (rw_pos s) c) = c) by (rewrite Hl; unfold c; lia).
      destruct (slice (rw_data s) (rw_pos s) c) as [|b bs] eqn:Eb.
      { injection H as <- <-. split; [apply same_raw_answered|]. right. rewrite lenN_nil in Hlc. unfold c in Hlc. lia. }
      rewrite <- Eb in *. rewrite Hlc in H.
      assert (Hc : 0 < c) by (rewrite Eb, lenN_cons in Hlc; lia).
      pose proof (need_got s n (rw_pos s + c) c ltac:(lia) ltac:(unfold c; lia)) as Hg. rewrite E in Hg. cbn [fst] in Hg. specialize (Hg ltac:(lia)).
      destruct (exact_upto fuel (answered s (rw_pos s + c)) (n - c)) as [s2 [rest|]] eqn:E2; injection H as <- <-;
        apply IH in E2; try lia; destruct E2 as [Hs E2]; cbn in E2.
      * split; [eapply same_raw_trans; [apply same_raw_answered|exact Hs]|]. destruct E2 as (-> & Hp & Hin).
        split; [|split].
        { rewrite <- slice_split_any. f_equal. unfold c. lia. }
        { rewrite Hp. unfold c. lia. }
        { intros _. unfold c in *. lia. }
      * split; [eapply same_raw_trans; [apply same_raw_answered|exact Hs]|]. destruct E2 as [E2|E2]; [left; exact E2|right; unfold c in *; lia].
Qed.

Lemma raw_read_exact_cases s n s' x : raw_read_exact s n = (s', x) ->
  same_raw s s' /\
  match x with
  | Some bs => bs = slice (rw_data s) (rw_pos s) n /\ rw_pos s' = rw_pos s + n /\ (0 < n -> rw_pos s + n <= lenN (rw_data s))
  | None => raw_fails s \/ lenN (rw_data s) < rw_pos s + n
  end.
Proof. apply exact_cases, exact_enough. Qed.

(** ** Every run on a raw source is a run on a [reader] *)
Definition stands (s : raw) (r : reader) : Prop :=
  rd_data r = rw_data s /\ rd_pos r = rw_pos s /\ rd_maxpos r = rw_maxpos s.
(** The next operations of [r] are decided by [ds]: bytes per read, failing or not. *)
Definition follows (r : reader) (ds : list (N * bool)) : Prop :=
  forall i d, nth_error ds i = Some d ->
  rd_chunk r (rd_ops r + i) = fst d /\ forall k, rd_fault r k (rd_ops r + i) = snd d.
Definition after (r : reader) (n : nat) (r' : reader) : Prop :=
  rd_data r' = rd_data r /\ rd_maxpos r' = rd_maxpos r /\ rd_chunk r' = rd_chunk r /\ rd_fault r' = rd_fault r /\
  rd_ops r' = (rd_ops r + n)%nat.

Section Mimic.
(** What may make a raw source fail a loader step. *)
Variable B : (nat -> nat * answer) -> Prop.

Definition okd (s : raw) (d : N * bool) : Prop :=
  (snd d = true -> B (rw_script s)) /\ (fst d < lenN (rw_data s) -> raw_cuts s).

Definition mimics {E A} (P : @G raw E A) (Q : @G reader E A) : Prop :=
  forall s m s' m' o, P s m = (s', m', o) ->
  same_raw s s' /\
  exists ds, Forall (okd s) ds /\
  forall r, stands s r -> follows r ds ->
  exists r', Q r m = (r', m', o) /\ after r (length ds) r' /\ (forall a, o = Ok a -> stands s' r').

Lemma follows_app r ds1 ds2 : follows r (ds1 ++ ds2) -> follows r ds1.
Proof.
  intros H i d Hd. apply H. rewrite nth_error_app1; [exact Hd|]. apply nth_error_Some. congruence.
Qed.
Lemma follows_after r r' ds1 ds2 : follows r (ds1 ++ ds2) -> after r (length ds1) r' -> follows r' ds2.
Proof.
  intros H (_ & _ & Hc & Hf & Ho) i d Hd.
  specialize (H (length ds1 + i)%nat d). rewrite nth_error_app2 in H by lia.
  replace (length ds1 + i - length ds1)%nat with i in H by lia. specialize (H Hd).
  rewrite Hc, Hf, Ho. replace (rd_ops r + length ds1 + i)%nat with (rd_ops r + (length ds1 + i))%nat by lia. exact H.
Qed.
Lemma after_trans r1 r2 r3 a b : after r1 a r2 -> after r2 b r3 -> after r1 (a + b) r3.
Proof. unfold after. intros (?&?&?&?&?) (?&?&?&?&?). repeat (split; [congruence|]). lia. Qed.
Lemma after_refl r : after r 0 r.
Proof. unfold after. repeat (split; [reflexivity|]). lia. Qed.
Lemma after_step r p : after r 1 (rd_step r p).
Proof. unfold after. cbn. repeat (split; [reflexivity|]). lia. Qed.
Lemma okd_same s s' d : same_raw s s' -> okd s' d -> okd s d.
Proof. unfold okd, raw_cuts. intros (-> & _ & ->) H. exact H. Qed.

Lemma mimics_pure {E A} (x : outcome E A) : mimics (gpure x) (gpure x).
Proof.
  intros s m s' m' o H. injection H as <- <- <-. split; [apply same_raw_refl|]. exists []. split; [constructor|].
  intros r Hs _. exists r. split; [reflexivity|]. split; [apply after_refl|]. auto.
Qed.
Lemma mimics_ret {E A} (a : A) : mimics (@gret raw E A a) (gret a).
Proof. apply (mimics_pure (Ok a)). Qed.
Lemma mimics_fail {E A} (e : E) : mimics (@gfail raw E A e) (gfail e).
Proof. apply (mimics_pure (Err e)). Qed.

Lemma mimics_bind {E A C} (P : @G raw E A) Q (F : A -> @G raw E C) H :
  mimics P Q -> (forall a, mimics (F a) (H a)) -> mimics (gbind P F) (gbind Q H).
Proof.
  intros HP HF s m s' m' o R. unfold gbind in R. destruct (P s m) as [[s1 m1] x] eqn:E1.
  destruct (HP _ _ _ _ _ E1) as [S1 (ds1 & D1 & W1)].
  destruct x as [a|e|p].
  - destruct (HF a _ _ _ _ _ R) as [S2 (ds2 & D2 & W2)].
    split; [eapply same_raw_trans; eassumption|]. exists (ds1 ++ ds2). split.
    { apply Forall_app. split; [exact D1|]. eapply Forall_impl; [|exact D2]. intros d. apply okd_same. exact S1. }
    intros r Hs Hf. destruct (W1 r Hs (follows_app _ _ _ Hf)) as (r1 & Q1 & A1 & T1).
    destruct (W2 r1 (T1 a eq_refl) (follows_after _ _ _ _ Hf A1)) as (r2 & Q2 & A2 & T2).
    exists r2. unfold gbind. rewrite Q1. split; [exact Q2|]. split; [|exact T2]. rewrite app_length. eapply after_trans; eassumption.
  - injection R as <- <- <-. split; [exact S1|]. exists ds1. split; [exact D1|]. intros r Hs Hf.
    destruct (W1 r Hs Hf) as (r1 & Q1 & A1 & T1). exists r1. unfold gbind. rewrite Q1. split; [reflexivity|]. split; [exact A1|]. discriminate.
  - injection R as <- <- <-. split; [exact S1|]. exists ds1. split; [exact D1|]. intros r Hs Hf.
    destruct (W1 r Hs Hf) as (r1 & Q1 & A1 & T1). exists r1. unfold gbind. rewrite Q1. split; [reflexivity|]. split; [exact A1|]. discriminate.
Qed.

(** Operations on the source alone. *)
Definition op_mimics {A} (f : raw -> raw * option A) (g : reader -> reader * option A) : Prop :=
  forall s s' x, f s = (s', x) ->
  same_raw s s' /\ exists d, okd s d /\
  forall r, stands s r -> follows r [d] -> exists p, g r = (rd_step r p, x) /\ (x <> None -> p = rw_pos s').

Lemma mimics_io {E A} (f : raw -> raw * option A) g (e : E) : op_mimics f g -> mimics (gio f e) (gio g e).
Proof.
  intros Hop s m s' m' o R. unfold gio in R. destruct (f s) as [s1 x] eqn:E1. destruct (Hop _ _ _ E1) as [S1 (d & D & W)].
  assert (X : s' = s1 /\ m' = m /\ o = match x with Some a => Ok a | None => Err e end) by (destruct x; injection R; auto).
  destruct X as (-> & -> & ->). split; [exact S1|]. exists [d]. split; [repeat constructor; apply D|].
  intros r Hs Hf. destruct (W r Hs Hf) as (p & Hg & Hp). exists (rd_step r p). unfold gio. rewrite Hg.
  split; [destruct x; reflexivity|]. split; [apply after_step|]. intros a Ha.
  destruct x as [y|]; [|discriminate]. rewrite Hp by discriminate. destruct Hs as (H1 & H2 & H3), S1 as (H4 & H5 & _). unfold stands. cbn. split; [congruence|]. split; [reflexivity|congruence].
Qed.

Lemma follows_one r d : follows r [d] -> rd_chunk r (rd_ops r) = fst d /\ forall k, rd_fault r k (rd_ops r) = snd d.
Proof. intros H. specialize (H 0%nat d eq_refl). rewrite Nat.add_0_r in H. exact H. Qed.

Hypothesis Bfails : forall sc i, snd (sc i) = Fails -> B sc.

Lemma op_seek (tgt : raw -> N) (poss : raw -> bool) (g : reader -> reader * option N) :
  (forall s r, stands s r -> g r =
     if rd_fault r Seeking (rd_ops r) then (rd_step r (rd_pos r), None)
     else if poss s then (rd_step r (tgt s), Some (tgt s)) else (rd_step r (rd_pos r), None)) ->
  op_mimics (fun s => raw_seek s (tgt s) (poss s)) g.
Proof.
  intros Hg s s' x H. unfold raw_seek in H. destruct (snd (rw_script s (rw_ops s))) as [|k] eqn:E.
  - injection H as <- <-. split; [apply same_raw_answered|]. exists (lenN (rw_data s), true).
    split; [split; cbn; [intros _; eapply Bfails; exact E|lia]|].
    intros r Hs Hf. apply follows_one in Hf. destruct Hf as [_ Hf]. exists (rd_pos r). rewrite (Hg s r Hs), Hf. cbn. split; [reflexivity|congruence].
  - split; [destruct (poss s); injection H as <- _; apply same_raw_answered|]. exists (lenN (rw_data s), false).
    split; [split; cbn; [discriminate|lia]|].
    intros r Hs Hf. apply follows_one in Hf. destruct Hf as [_ Hf]. rewrite (Hg s r Hs), Hf. cbn [snd].
    destruct (poss s); injection H as <- <-; eexists; (split; [reflexivity|]); cbn; congruence.
Qed.

Lemma op_seek_start p : op_mimics (fun s => raw_seek_start s p) (fun r => seek_start r p).
Proof.
  apply (op_seek (fun _ => p) (fun s => p <=? rw_maxpos s)). intros s r (_ & _ & Hm). unfold seek_start. rewrite Hm.
  destruct (rd_fault r Seeking (rd_ops r)); [reflexivity|]. destruct (N.ltb_spec (rw_maxpos s) p), (N.leb_spec p (rw_maxpos s)); try lia; reflexivity.
Qed.
Lemma op_seek_end : op_mimics raw_seek_end seek_end.
Proof.
  apply (op_seek (fun s => lenN (rw_data s)) (fun s => true)). intros s r (Hd & _ & _). unfold seek_end, rd_len. rewrite Hd. reflexivity.
Qed.
Lemma op_seek_cur d : op_mimics (fun s => raw_seek_cur s d) (fun r => seek_cur r d).
Proof.
  apply (op_seek (fun s => Z.to_N (Z.of_N (rw_pos s) + d)%Z)
           (fun s => (0 <=? Z.of_N (rw_pos s) + d)%Z && (Z.to_N (Z.of_N (rw_pos s) + d) <=? rw_maxpos s))).
  intros s r (_ & Hp & Hm). unfold seek_cur. rewrite Hm, Hp. destruct (rd_fault r Seeking (rd_ops r)); [reflexivity|].
  destruct (Z.ltb_spec (Z.of_N (rw_pos s) + d) 0), (Z.leb_spec 0 (Z.of_N (rw_pos s) + d)); try lia; cbn [orb andb]; [reflexivity|].
  destruct (N.ltb_spec (rw_maxpos s) (Z.to_N (Z.of_N (rw_pos s) + d))), (N.leb_spec (Z.to_N (Z.of_N (rw_pos s) + d)) (rw_maxpos s)); try lia; reflexivity.
Qed.

Lemma op_read_exact n : 0 < n -> op_mimics (fun s => raw_read_exact s n) (fun r => read_exact r n).
Proof.
  intros Hn s s' x H. apply raw_read_exact_cases in H. destruct H as [Hs H]. split; [exact Hs|].
  destruct x as [bs|].
  - destruct H as (-> & Hp & Hin). exists (lenN (rw_data s), false). split; [split; cbn; [discriminate|lia]|].
    intros r (Rd & Rp & Rm) Hf. apply follows_one in Hf. destruct Hf as [_ Hf]. unfold read_exact. rewrite Hf. cbn [snd]. unfold rd_len. rewrite Rd, Rp.
    destruct (N.ltb_spec (lenN (rw_data s)) (rw_pos s + n)); [specialize (Hin Hn); lia|]. eexists. split; [reflexivity|]. intros _. congruence.
  - destruct (N.ltb_spec (lenN (rw_data s)) (rw_pos s + n)) as [L|L].
    + exists (lenN (rw_data s), false). split; [split; cbn; [discriminate|lia]|].
      intros r (Rd & Rp & Rm) Hf. apply follows_one in Hf. destruct Hf as [_ Hf]. unfold read_exact. rewrite Hf. cbn [snd]. unfold rd_len. rewrite Rd, Rp.
      rewrite (proj2 (N.ltb_lt _ _)) by lia. eexists. split; [reflexivity|]. congruence.
    + destruct H as [[i H]|H]; [|lia]. exists (lenN (rw_data s), true). split; [split; cbn; [intros _; eapply Bfails; exact H|lia]|].
      intros r (Rd & Rp & Rm) Hf. apply follows_one in Hf. destruct Hf as [_ Hf]. unfold read_exact. rewrite Hf. cbn [snd].
      eexists. split; [reflexivity|]. congruence.
Qed.

Lemma op_deliver n : op_mimics (fun s => deliver s n) (fun r => read_volatile r n).
Proof.
  intros s s' x H. unfold deliver in H. destruct (snd (rw_script s (rw_ops s))) as [|k] eqn:E.
  - injection H as <- <-. split; [apply same_raw_answered|]. exists (lenN (rw_data s), true).
    split; [split; cbn; [intros _; eapply Bfails; exact E|lia]|].
    intros r Hs Hf. apply follows_one in Hf. destruct Hf as [_ Hf]. exists (rd_pos r). unfold read_volatile. rewrite Hf. cbn. split; [reflexivity|congruence].
  - injection H as <- <-. split; [apply same_raw_answered|]. exists (k, false).
    split; [split; cbn; [discriminate|]; intros Hk; exists (rw_ops s), k; auto|].
    intros r (Rd & Rp & Rm) Hf. apply follows_one in Hf. destruct Hf as [Hc Hf]. unfold read_volatile. rewrite Hf, Hc. cbn [snd fst]. unfold rd_len. rewrite Rd, Rp.
    eexists. split; [reflexivity|]. reflexivity.
Qed.
Lemma op_read_retry n : op_mimics (fun s => raw_retry s n) (fun r => read_volatile r n).
Proof. intros s s' x H. rewrite raw_retry_deliver in H. exact (op_deliver n s s' x H). Qed.

(** The copy into guest memory. *)
Lemma mimics_read_loop be fuel : forall cur left total,
  mimics (fun s m => gread_loop raw_source be fuel s m cur left total) (fun r m => gread_loop reader_source be fuel r m cur left total).
Proof.
  induction fuel as [|fuel IH]; intros cur left total s m s' m' o H; cbn [gread_loop] in H.
  { injection H as <- <- <-. split; [apply same_raw_refl|]. exists []. split; [constructor|]. intros r Hs _. exists r. split; [reflexivity|]. split; [apply after_refl|]. discriminate. }
  destruct (find_region m cur) as [rg|] eqn:Ef.
  2:{ injection H as <- <- <-. split; [apply same_raw_refl|]. exists []. split; [constructor|]. intros r Hs _. exists r. cbn [gread_loop]. rewrite Ef. split; [reflexivity|]. split; [apply after_refl|]. auto. }
  cbv zeta in H. set (n := N.min (r_base rg + r_len rg - cur) left) in *.
  change (so_read_retry raw_source s n) with (raw_retry s n) in H. destruct (raw_retry s n) as [s1 x] eqn:E1.
  destruct (op_read_retry n _ _ _ E1) as [S1 (d & D & W)].
  assert (T1 : forall r p, stands s r -> (x <> None -> p = rw_pos s1) -> x <> None -> stands s1 (rd_step r p)).
  { intros r p (H1 & H2 & H3) Hp Hx. destruct S1 as (H4 & H5 & _). unfold stands. cbn. split; [congruence|]. split; [auto|congruence]. }
  destruct x as [bs|].
  2:{ injection H as <- <- <-. split; [exact S1|]. exists [d]. split; [repeat constructor; apply D|]. intros r Hs Hf. destruct (W r Hs Hf) as (p & Hg & Hp).
      exists (rd_step r p). cbn [gread_loop]. rewrite Ef. cbv zeta. fold n. change (so_read_retry reader_source r n) with (read_volatile r n). rewrite Hg.
      split; [reflexivity|]. split; [apply after_step|]. discriminate. }
  set (adv := match be with TryAccess => lenN bs | GetSlices => n end) in *.
  destruct (adv =? 0) eqn:Ea; [|destruct (adv =? left) eqn:Eb; [|destruct (next_addr cur adv) as [cur'|] eqn:En]].
  1, 2, 4: injection H as <- <- <-; split; [exact S1|]; exists [d]; split; [repeat constructor; apply D|]; intros r Hs Hf; destruct (W r Hs Hf) as (p & Hg & Hp);
      exists (rd_step r p); cbn [gread_loop]; rewrite Ef; cbv zeta; fold n; change (so_read_retry reader_source r n) with (read_volatile r n); rewrite Hg; fold adv;
      rewrite ?Ea, ?Eb, ?En; split; [reflexivity|]; split; [apply after_step|]; intros _ _; apply T1; [exact Hs|exact Hp|discriminate].
  destruct (IH _ _ _ _ _ _ _ _ H) as [S2 (ds & D2 & W2)].
  split; [eapply same_raw_trans; eassumption|]. exists (d :: ds). split.
  { constructor; [exact D|]. eapply Forall_impl; [|exact D2]. intros x. apply okd_same. exact S1. }
  intros r Hs Hf. change (d :: ds) with ([d] ++ ds) in Hf. destruct (W r Hs (follows_app _ _ _ Hf)) as (p & Hg & Hp).
  destruct (W2 (rd_step r p) (T1 r p Hs Hp ltac:(discriminate)) (follows_after _ _ [d] _ Hf (after_step r p))) as (r2 & Q2 & A2 & T2).
  exists r2. cbn [gread_loop]. rewrite Ef. cbv zeta. fold n. change (so_read_retry reader_source r n) with (read_volatile r n). rewrite Hg. fold adv. rewrite Ea, Eb, En.
  split; [exact Q2|]. split; [|exact T2]. change (length (d :: ds)) with (1 + length ds)%nat. eapply after_trans; [apply after_step|exact A2].
Qed.

Lemma mimics_copy be a n e : mimics (gcopy raw_source be a n e) (gcopy reader_source be a n e).
Proof.
  intros s m s' m' o H. unfold gcopy, gread_exact_volatile_from in H.
  assert (Z : be = GetSlices /\ n = 0 \/ ~ (be = GetSlices /\ n = 0)) by (destruct be, (N.eq_dec n 0); intuition congruence).
  destruct Z as [[-> ->]|Z].
  { injection H as <- <- <-. split; [apply same_raw_refl|]. exists []. split; [constructor|]. intros r Hs _. exists r. split; [reflexivity|]. split; [apply after_refl|]. auto. }
  assert (Hd : forall (T : Type) (x y : T), match be, n with GetSlices, 0 => x | _, _ => y end = y).
  { intros T x y. destruct be; [reflexivity|]. destruct n; [tauto|reflexivity]. }
  rewrite Hd in H. cbn [so_len raw_source] in H.
  destruct (gread_loop raw_source be (S (length (rw_data s) + length (regions m))) s m a n 0) as [[s1 m1] x] eqn:E1.
  destruct (mimics_read_loop be _ _ _ _ _ _ _ _ _ E1) as [S1 (ds & D & W)].
  assert (X : s' = s1 /\ m' = m1 /\ o = match x with Ok k => if k =? n then Ok tt else Err e | Err _ => Err e | Panic p => Panic p end).
  { destruct x as [k| |]; [destruct (k =? n)| |]; injection H; auto. }
  destruct X as (-> & -> & ->). split; [exact S1|]. exists ds. split; [exact D|].
  intros r Hs Hf. destruct (W r Hs Hf) as (r' & Q & A & T). exists r'. split.
  { unfold gcopy, gread_exact_volatile_from. rewrite Hd. cbn [so_len reader_source]. destruct Hs as (-> & _ & _). rewrite Q. destruct x as [k| |]; [destruct (k =? n)| |]; reflexivity. }
  split; [exact A|]. intros y Hy. destruct x as [k|?|?]; try discriminate. apply (T k eq_refl).
Qed.

Lemma mimics_src {E A} (n1 : raw -> nat) (n2 : reader -> nat) (P : nat -> @G raw E A) Q :
  (forall s r, stands s r -> n1 s = n2 r) -> (forall n, mimics (P n) (Q n)) -> mimics (fun s => P (n1 s) s) (fun r => Q (n2 r) r).
Proof.
  intros Hn HP s m s' m' o H. destruct (HP _ _ _ _ _ _ H) as [S1 (ds & D & W)]. split; [exact S1|]. exists ds. split; [exact D|].
  intros r Hs Hf. rewrite <- (Hn s r Hs). apply W; assumption.
Qed.

Ltac mim1 := first
  [ apply mimics_ret | apply mimics_fail | apply mimics_pure | apply mimics_copy
  | apply mimics_io; first [apply op_seek_start | apply op_seek_end | apply op_seek_cur | apply op_read_exact; reflexivity]
  | apply mimics_bind; [|intros ?]
  | match goal with
    | |- mimics (if ?b then _ else _) _ => destruct b
    | |- mimics (match ?b with Some _ => _ | None => _ end) _ => destruct b
    end
  | progress cbv zeta ].
Ltac mim := repeat mim1.

Lemma mimics_note_loop bld phdr fuel : forall rs nh, mimics (gnote_loop raw_source bld fuel phdr rs nh) (gnote_loop reader_source bld fuel phdr rs nh).
Proof.
  induction fuel as [|fuel IH]; intros rs nh; cbn [gnote_loop]; [apply mimics_pure|]. mim. apply IH.
Qed.
Lemma mimics_parse_note bld phdr : mimics (gparse_elf_note raw_source bld phdr) (gparse_elf_note reader_source bld phdr).
Proof.
  unfold gparse_elf_note. apply mimics_bind; [mim|]. intros _. apply mimics_bind.
  - apply (mimics_src (fun s => S (length (rw_data s) / 12)) (fun r => S (length (rd_data r) / 12))
             (fun n => gnote_loop raw_source bld n phdr 0 (default_of Elf64_Nhdr)) (fun n => gnote_loop reader_source bld n phdr 0 (default_of Elf64_Nhdr))).
    + intros s r (-> & _). reflexivity.
    + intros n. apply mimics_note_loop.
  - intros res. mim.
Qed.
Lemma mimics_read_phdrs n : mimics (gread_phdrs raw_source n) (gread_phdrs reader_source n).
Proof. induction n as [|n IH]; cbn [gread_phdrs]; mim. apply IH. Qed.
Lemma mimics_load_phdrs bld be off phdrs : forall kend cap,
  mimics (gload_phdrs raw_source bld be off phdrs kend cap) (gload_phdrs reader_source bld be off phdrs kend cap).
Proof.
  induction phdrs as [|phdr rest IH]; intros kend cap; cbn [gload_phdrs]; [apply mimics_ret|].
  repeat first [apply IH | apply mimics_parse_note | mim1].
Qed.
Lemma mimics_elf bld be off highmem : mimics (gelf_load raw_source bld be off highmem) (gelf_load reader_source bld be off highmem).
Proof. unfold gelf_load. repeat first [apply mimics_read_phdrs | apply mimics_load_phdrs | mim1]. Qed.
Lemma mimics_pe a be off highmem : mimics (gpe_load raw_source a be off highmem) (gpe_load reader_source a be off highmem).
Proof. unfold gpe_load. mim. destruct a; apply mimics_io, op_read_exact; reflexivity. Qed.
Lemma mimics_dtb be addr : mimics (gload_dtb raw_source be addr) (gload_dtb reader_source be addr).
Proof. unfold gload_dtb. mim. Qed.

(** The bzImage header is read without retrying. *)
Hypothesis Bintr : forall sc i, (0 < fst (sc i))%nat -> B sc.
Lemma op_read_once n : op_mimics (fun s => raw_once s n) (fun r => read_volatile r n).
Proof.
  intros s s' x H. unfold raw_once, raw_read in H. pose proof (op_deliver n s) as W. unfold deliver in W.
  destruct (rw_script s (rw_ops s)) as [i a] eqn:E. cbn [snd] in W. destruct (Nat.ltb_spec (rw_intr s) i).
  - injection H as <- <-. split; [split; auto|]. exists (lenN (rw_data s), true).
    split; [split; cbn; [intros _; apply (Bintr _ (rw_ops s)); rewrite E; cbn; lia|lia]|].
    intros r Hs Hf. apply follows_one in Hf. destruct Hf as [_ Hf]. exists (rd_pos r). unfold read_volatile. rewrite Hf. cbn. split; [reflexivity|congruence].
  - apply W. destruct a; exact H.
Qed.
Lemma op_read_header : op_mimics (gread_header raw_source) (gread_header reader_source).
Proof.
  intros s s' x H. unfold gread_header in H. change (so_read_volatile raw_source s) with (raw_once s) in H.
  destruct (raw_once s (size setup_header)) as [s1 y] eqn:E1. destruct (op_read_once _ _ _ _ E1) as [S1 (d & D & W)].
  assert (X : s' = s1 /\ x = match y with Some bs => Some (patch (default_of setup_header) 0 bs) | None => None end) by (destruct y; injection H; auto).
  destruct X as (-> & ->). split; [exact S1|]. exists d. split; [exact D|]. intros r Hs Hf. destruct (W r Hs Hf) as (p & Hg & Hp). exists p.
  unfold gread_header. change (so_read_volatile reader_source r) with (read_volatile r). rewrite Hg. split; [destruct y; reflexivity|]. destruct y; [intros _; apply Hp; discriminate|congruence].
Qed.
Lemma mimics_bz be off highmem : mimics (gbz_load raw_source be off highmem) (gbz_load reader_source be off highmem).
Proof. unfold gbz_load. mim; apply mimics_io, op_read_header. Qed.
End Mimic.

(** A reader that follows given decisions, and neither fails nor cuts afterwards. *)
Definition led (s : raw) (ds : list (N * bool)) : reader :=
  mkReader (rw_data s) (rw_pos s) (rw_maxpos s) (fun i => fst (nth i ds (lenN (rw_data s), false)))
    (fun _ i => snd (nth i ds (lenN (rw_data s), false))) 0.
Lemma led_follows s ds : follows (led s ds) ds.
Proof. intros i d H. cbn. rewrite (nth_error_nth _ _ _ H). auto. Qed.
Lemma led_stands s ds : stands s (led s ds).
Proof. repeat split. Qed.

(** [r] is a source of the same bytes at the same place; it fails only if [B], and cuts reads only if [s] does. *)
Definition stand_in (s : raw) (B : Prop) (r : reader) : Prop :=
  rd_data r = rw_data s /\ rd_pos r = rw_pos s /\ rd_maxpos r = rw_maxpos s /\
  (forall k i, rd_fault r k i = true -> B) /\
  (forall i, rd_chunk r i < lenN (rw_data s) -> raw_cuts s).

Lemma mimics_use B {E A} (P : @G raw E A) Q s m s' m' o :
  mimics B P Q -> P s m = (s', m', o) -> exists r r', stand_in s (B (rw_script s)) r /\ Q r m = (r', m', o).
Proof.
  intros HM H. destruct (HM _ _ _ _ _ H) as [_ (ds & D & W)]. destruct (W (led s ds) (led_stands s ds) (led_follows s ds)) as (r' & Q1 & _).
  exists (led s ds), r'. split; [|exact Q1]. split; [reflexivity|]. split; [reflexivity|]. split; [reflexivity|].
  rewrite Forall_forall in D. split.
  - intros k i Hf. cbn in Hf. destruct (nth_in_or_default i ds (lenN (rw_data s), false)) as [Hi|Hi]; [apply (proj1 (D _ Hi) Hf)|rewrite Hi in Hf; discriminate].
  - intros i Hc. cbn in Hc. destruct (nth_in_or_default i ds (lenN (rw_data s), false)) as [Hi|Hi]; [apply (proj2 (D _ Hi) Hc)|rewrite Hi in Hc; cbn in Hc; lia].
Qed.

(** ** Interruptions do not matter at all *)
Lemma read_exact_deliver s n : 0 < n -> raw_read_exact s n =
  match deliver s n with
  | (s', None) => (s', None)
  | (s', Some []) => (s', None)
  | (s', Some bs) =>
      match raw_read_exact s' (n - lenN bs) with
      | (s'', Some rest) => (s'', Some (bs ++ rest))
      | (s'', None) => (s'', None)
      end
  end.
Proof.
  intros Hn. remember (fst (rw_script s (rw_ops s)) - rw_intr s)%nat as w eqn:Ew. revert s Ew.
  induction w as [|w IH]; intros s Ew; rewrite read_exact_loop; (destruct (N.eqb_spec n 0); [lia|]); unfold raw_read; destruct (rw_script s (rw_ops s)) as [i a] eqn:E; cbn [fst] in Ew.
  - destruct (Nat.ltb_spec (rw_intr s) i); [lia|]. unfold deliver. rewrite E. cbn [snd]. destruct a; [reflexivity|].
    destruct (slice _ _ _); reflexivity.
  - destruct (Nat.ltb_spec (rw_intr s) i); [|lia]. rewrite IH; unfold deliver; cbn; rewrite E; cbn; [reflexivity|lia].
Qed.

(** The same source, except for when and how often it is interrupted. *)
Definition alike (s t : raw) : Prop :=
  rw_data s = rw_data t /\ rw_pos s = rw_pos t /\ rw_maxpos s = rw_maxpos t /\ rw_ops s = rw_ops t /\
  forall i, snd (rw_script s i) = snd (rw_script t i).
Lemma alike_refl s : alike s s.
Proof. repeat split. Qed.
Lemma alike_answered s t p : alike s t -> alike (answered s p) (answered t p).
Proof. unfold alike, answered. cbn. intros (? & ? & ? & -> & ?). auto. Qed.

Definition op_agrees {A} (f : raw -> raw * option A) : Prop :=
  forall s t, alike s t -> alike (fst (f s)) (fst (f t)) /\ snd (f s) = snd (f t).
Lemma agrees_seek (tgt : raw -> N) (poss : raw -> bool) :
  (forall s t, alike s t -> tgt s = tgt t /\ poss s = poss t) -> op_agrees (fun s => raw_seek s (tgt s) (poss s)).
Proof.
  intros H s t A. destruct (H s t A) as [-> ->]. pose proof A as (_ & Hp & _ & Ho & Hs). unfold raw_seek. rewrite Hs, Ho, Hp.
  destruct (snd (rw_script t (rw_ops t))); [|destruct (poss t)]; cbn [fst snd]; split; try reflexivity; apply alike_answered, A.
Qed.
Lemma agrees_seek_start p : op_agrees (fun s => raw_seek_start s p).
Proof. apply (agrees_seek (fun _ => p) (fun s => p <=? rw_maxpos s)). intros s t (_ & _ & -> & _). auto. Qed.
Lemma agrees_seek_end : op_agrees raw_seek_end.
Proof. apply (agrees_seek (fun s => lenN (rw_data s)) (fun s => true)). intros s t (-> & _). auto. Qed.
Lemma agrees_seek_cur d : op_agrees (fun s => raw_seek_cur s d).
Proof.
  apply (agrees_seek (fun s => Z.to_N (Z.of_N (rw_pos s) + d)%Z)
           (fun s => (0 <=? Z.of_N (rw_pos s) + d)%Z && (Z.to_N (Z.of_N (rw_pos s) + d) <=? rw_maxpos s))).
  intros s t (_ & -> & -> & _). auto.
Qed.
Lemma agrees_deliver n : op_agrees (fun s => deliver s n).
Proof.
  intros s t A. pose proof A as (Hd & Hp & _ & Ho & Hs). unfold deliver. rewrite Hs, Ho, Hp, Hd.
  destruct (snd (rw_script t (rw_ops t))); cbn [fst snd]; split; try reflexivity; apply alike_answered, A.
Qed.
Lemma agrees_retry n : op_agrees (fun s => raw_retry s n).
Proof. intros s t A. rewrite !raw_retry_deliver. exact (agrees_deliver n s t A). Qed.
Lemma agrees_exact n : op_agrees (fun s => raw_read_exact s n).
Proof.
  induction n as [n IH] using (well_founded_induction N.lt_wf_0). intros s t A.
  destruct (N.eq_dec n 0) as [->|Hn]; [split; [exact A|reflexivity]|].
  rewrite !read_exact_deliver by lia. destruct (agrees_deliver n s t A) as [A1 E1].
  destruct (deliver s n) as [s1 x1], (deliver t n) as [t1 x2]. cbn [fst snd] in *. subst x2.
  destruct x1 as [[|b bs]|]; cbn [fst snd]; try (split; [exact A1|reflexivity]).
  destruct (IH (n - lenN (b :: bs)) ltac:(rewrite lenN_cons; lia) s1 t1 A1) as [A2 E2].
  destruct (raw_read_exact s1 _) as [s2 y1], (raw_read_exact t1 _) as [t2 y2]. cbn [fst snd] in *. subst y2.
  destruct y1; split; try exact A2; reflexivity.
Qed.

Definition agrees {E A} (P : @G raw E A) : Prop :=
  forall s t m, alike s t -> snd (P s m) = snd (P t m) /\ snd (fst (P s m)) = snd (fst (P t m)) /\ alike (fst (fst (P s m))) (fst (fst (P t m))).

Lemma agrees_pure {E A} (x : outcome E A) : agrees (gpure x).
Proof. intros s t m H. cbn. auto. Qed.
Lemma agrees_ret {E A} (a : A) : agrees (@gret raw E A a).
Proof. intros s t m H. cbn. auto. Qed.
Lemma agrees_fail {E A} (e : E) : agrees (@gfail raw E A e).
Proof. intros s t m H. cbn. auto. Qed.
Lemma agrees_io {E A} (f : raw -> raw * option A) (e : E) : op_agrees f -> agrees (gio f e).
Proof.
  intros Hf s t m H. unfold gio. destruct (Hf s t H) as [H1 H2]. destruct (f s) as [s1 x1], (f t) as [t1 x2]. cbn [fst snd] in *. subst x2.
  destruct x1; cbn; auto.
Qed.
Lemma agrees_bind {E A C} (P : @G raw E A) (F : A -> @G raw E C) : agrees P -> (forall a, agrees (F a)) -> agrees (gbind P F).
Proof.
  intros HP HF s t m H. unfold gbind. destruct (HP s t m H) as (H1 & H2 & H3).
  destruct (P s m) as [[s1 m1] x1], (P t m) as [[t1 m2] x2]. cbn [fst snd] in *. subst x2 m2.
  destruct x1; [apply HF; exact H3| |]; cbn; auto.
Qed.
Lemma agrees_read_loop be fuel : forall cur left total, agrees (fun s m => gread_loop raw_source be fuel s m cur left total).
Proof.
  induction fuel as [|fuel IH]; intros cur left total s t m H; cbn [gread_loop]; [cbn; auto|].
  destruct (find_region m cur) as [rg|]; [|cbn; auto]. cbv zeta. set (n := N.min (r_base rg + r_len rg - cur) left).
  change (so_read_retry raw_source) with raw_retry. destruct (agrees_retry n s t H) as [H1 H2].
  destruct (raw_retry s n) as [s1 x1], (raw_retry t n) as [t1 x2]. cbn [fst snd] in *. subst x2.
  destruct x1 as [bs|]; [|cbn; auto].
  set (adv := match be with TryAccess => lenN bs | GetSlices => n end).
  destruct (adv =? 0); [cbn; auto|]. destruct (adv =? left); [cbn; auto|]. destruct (next_addr cur adv); [|cbn; auto].
  apply IH. exact H1.
Qed.
Lemma agrees_copy be a n e : agrees (gcopy raw_source be a n e).
Proof.
  intros s t m H. unfold gcopy, gread_exact_volatile_from.
  assert (Z : be = GetSlices /\ n = 0 \/ ~ (be = GetSlices /\ n = 0)) by (destruct be, (N.eq_dec n 0); intuition congruence).
  destruct Z as [[-> ->]|Z]; [cbn; auto|].
  assert (Hd : forall (T : Type) (x y : T), match be, n with GetSlices, 0 => x | _, _ => y end = y).
  { intros T x y. destruct be; [reflexivity|]. destruct n; [tauto|reflexivity]. }
  rewrite !Hd. cbn [so_len raw_source]. replace (length (rw_data t)) with (length (rw_data s)) by (destruct H as (-> & _); reflexivity).
  destruct (agrees_read_loop be (S (length (rw_data s) + length (regions m))) a n 0 s t m H) as (H1 & H2 & H3).
  destruct (gread_loop raw_source be _ s m a n 0) as [[s1 m1] x1], (gread_loop raw_source be _ t m a n 0) as [[t1 m2] x2]. cbn [fst snd] in *. subst x2 m2.
  destruct x1 as [k| |]; [destruct (k =? n)| |]; cbn; auto.
Qed.

Ltac agr1 := first
  [ apply agrees_ret | apply agrees_fail | apply agrees_pure | apply agrees_copy
  | apply agrees_io; first [apply agrees_seek_start | apply agrees_seek_end | apply agrees_seek_cur | apply agrees_exact]
  | apply agrees_bind; [|intros ?]
  | match goal with
    | |- agrees (if ?b then _ else _) => destruct b
    | |- agrees (match ?b with Some _ => _ | None => _ end) => destruct b
    end
  | progress cbv zeta ].

Lemma agrees_note_loop bld phdr fuel : forall rs nh, agrees (gnote_loop raw_source bld fuel phdr rs nh).
Proof. induction fuel as [|fuel IH]; intros rs nh; cbn [gnote_loop]; [apply agrees_pure|]. repeat first [apply IH | agr1]. Qed.
Lemma agrees_parse_note bld phdr : agrees (gparse_elf_note raw_source bld phdr).
Proof.
  unfold gparse_elf_note. apply agrees_bind; [repeat agr1|]. intros _. apply agrees_bind; [|intros res; repeat agr1].
  intros s t m H. cbn [so_len raw_source]. replace (length (rw_data t)) with (length (rw_data s)) by (destruct H as (-> & _); reflexivity).
  apply agrees_note_loop. exact H.
Qed.
Lemma agrees_read_phdrs n : agrees (gread_phdrs raw_source n).
Proof. induction n as [|n IH]; cbn [gread_phdrs]; repeat first [apply IH | agr1]. Qed.
Lemma agrees_load_phdrs bld be off phdrs : forall kend cap, agrees (gload_phdrs raw_source bld be off phdrs kend cap).
Proof.
  induction phdrs as [|phdr rest IH]; intros kend cap; cbn [gload_phdrs]; [apply agrees_ret|].
  repeat first [apply IH | apply agrees_parse_note | agr1].
Qed.
Lemma agrees_elf bld be off highmem : agrees (gelf_load raw_source bld be off highmem).
Proof. unfold gelf_load. repeat first [apply agrees_read_phdrs | apply agrees_load_phdrs | agr1]. Qed.
Lemma agrees_pe a be off highmem : agrees (gpe_load raw_source a be off highmem).
Proof. unfold gpe_load. repeat agr1. Qed.
Lemma agrees_dtb be addr : agrees (gload_dtb raw_source be addr).
Proof. unfold gload_dtb. repeat agr1. Qed.

(** For a bzImage: unless the (unretried) read of the setup header is interrupted. *)
Definition header_uninterrupted (s : raw) : Prop := fst (rw_script s (rw_ops s + 2)) = 0%nat.

Definition agrees_on (I : raw -> Prop) {E A} (P : @G raw E A) : Prop :=
  forall s t m, alike s t -> I s -> I t ->
  snd (P s m) = snd (P t m) /\ snd (fst (P s m)) = snd (fst (P t m)) /\ alike (fst (fst (P s m))) (fst (fst (P t m))).
Lemma agrees_on_weak I {E A} (P : @G raw E A) : agrees P -> agrees_on I P.
Proof. intros H s t m Ha _ _. apply H. exact Ha. Qed.
Lemma agrees_on_bind (I J : raw -> Prop) {E A C} (P : @G raw E A) (F : A -> @G raw E C) :
  agrees_on I P -> (forall s m s' m' a, I s -> P s m = (s', m', Ok a) -> J s') -> (forall a, agrees_on J (F a)) -> agrees_on I (gbind P F).
Proof.
  intros HP HJ HF s t m H Is It. unfold gbind. destruct (HP s t m H Is It) as (H1 & H2 & H3).
  destruct (P s m) as [[s1 m1] x1] eqn:E1, (P t m) as [[t1 m2] x2] eqn:E2. cbn [fst snd] in *. subst x2 m2.
  destruct x1; [apply HF; [exact H3|eapply HJ; [exact Is|exact E1]|eapply HJ; [exact It|exact E2]]| |]; cbn; auto.
Qed.
Lemma agrees_on_once n : forall s t, alike s t -> (fst (rw_script s (rw_ops s)) = 0)%nat -> (fst (rw_script t (rw_ops t)) = 0)%nat ->
  alike (fst (raw_once s n)) (fst (raw_once t n)) /\ snd (raw_once s n) = snd (raw_once t n).
Proof.
  assert (X : forall s, (fst (rw_script s (rw_ops s)) = 0)%nat -> raw_once s n = deliver s n).
  { intros s Hs. unfold raw_once, raw_read, deliver. destruct (rw_script s (rw_ops s)) as [i a]. cbn [fst snd] in *. subst i.
    destruct (Nat.ltb_spec (rw_intr s) 0); [lia|]. destruct a; reflexivity. }
  intros s t A Hs Ht. rewrite !X by assumption. exact (agrees_deliver n s t A).
Qed.
Lemma gio_seek_ops {E} (tgt : raw -> N) (poss : raw -> bool) (e : E) s m s' m' a :
  gio (fun s => raw_seek s (tgt s) (poss s)) e s m = (s', m', Ok a) -> rw_script s' = rw_script s /\ rw_ops s' = S (rw_ops s).
Proof.
  unfold gio, raw_seek. destruct (snd (rw_script s (rw_ops s))); [discriminate|]. destruct (poss s); [|discriminate].
  intros H. injection H as <- _ _. cbn. auto.
Qed.
Lemma agrees_bz be off highmem : agrees_on header_uninterrupted (gbz_load raw_source be off highmem).
Proof.
  unfold gbz_load.
  apply (agrees_on_bind _ (fun s => fst (rw_script s (rw_ops s + 1)) = 0%nat)); [apply agrees_on_weak; repeat agr1| |].
  { intros s m s' m' a Hs H. apply (gio_seek_ops (fun s => lenN (rw_data s)) (fun s => true)) in H. destruct H as [-> ->]. unfold header_uninterrupted in Hs.
    replace (S (rw_ops s) + 1)%nat with (rw_ops s + 2)%nat by lia. exact Hs. }
  intros size0.
  apply (agrees_on_bind _ (fun s => fst (rw_script s (rw_ops s)) = 0%nat)); [apply agrees_on_weak; repeat agr1| |].
  { intros s m s' m' a Hs H. apply (gio_seek_ops (fun s => 0x1F1) (fun s => 0x1F1 <=? rw_maxpos s)) in H. destruct H as [-> ->].
    replace (S (rw_ops s)) with (rw_ops s + 1)%nat by lia. exact Hs. }
  intros _. apply (agrees_on_bind _ (fun _ => True)); [|auto|].
  - intros s t m A Hs Ht. unfold gio, gread_header. change (so_read_volatile raw_source) with raw_once.
    destruct (agrees_on_once (size setup_header) s t A Hs Ht) as [H1 H2].
    destruct (raw_once s _) as [s1 x1], (raw_once t _) as [t1 x2]. cbn [fst snd] in *. subst x2. destruct x1; cbn; auto.
  - intros h. apply agrees_on_weak. repeat agr1.
Qed.
