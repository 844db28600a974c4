(** Lemmas: the outcome of a call does not depend on how memory is split into regions, on the
    position of the source or on how much it returns per read. *)
From Verif Require Import Base Base_proofs Io Mem SpecMem Mem_proofs Layout SpecFile File_proofs Text Cmdline Loader Elf SpecElf
  BzImage SpecBz Pe SpecPe BootParams Configurators SpecVmm.
Open Scope loader_scope.

(** ** What a copy does, exactly *)
Lemma range_backed_app m a k l : range_backed m a k -> range_backed m (a + k) l -> range_backed m a (k + l).
Proof.
  intros H1 H2 x Hx1 Hx2. destruct (N.ltb_spec x (a + k)); [apply H1; lia|apply H2; lia].
Qed.

Lemma write_loop_exact fuel : forall m cur data total m' o,
  wf_mem m = true -> 0 < lenN data -> (length data < fuel)%nat ->
  write_loop fuel m cur data total = (m', o) ->
  exists k, k <= lenN data /\ regions m' = regions m /\
     (forall x, gm_byte m' x = put (gm_byte m) cur (slice data 0 k) x) /\
     range_backed m cur k /\ (k = lenN data \/ ~ backed m (cur + k)) /\
     (o = Ok (total + k) \/ o = Err tt /\ k = 0 /\ total = 0).
Proof.
  induction fuel as [|fuel IH]; intros m cur data total m' o Hw Hd Hf H; [lia|].
  cbn [write_loop] in H. destruct (find_region m cur) as [r|] eqn:Ef.
  2:{ apply find_region_none in Ef. injection H as <- <-. exists 0. rewrite N.add_0_r, slice_zero.
      split; [lia|]. split; [reflexivity|]. split; [intros x; now rewrite put_nil|]. split; [intros x ? ?; lia|].
      split; [now right|]. destruct (N.eqb_spec total 0); [right; auto|left; f_equal; lia]. }
  apply find_region_some in Ef as (Hin & Hr1 & Hr2). destruct (wf_region m r Hw Hin) as [Hlen Hend].
  set (n := N.min (r_base r + r_len r - cur) (lenN data)) in *.
  assert (0 < n) by lia. destruct (N.eqb_spec n 0); [lia|].
  assert (Hb : range_backed m cur n). { intros x Hx1 Hx2. exists r. repeat split; [exact Hin| |]; lia. }
  destruct (N.eqb_spec n (lenN data)) as [Ha|Ha].
  - injection H as <- <-. exists n. split; [lia|]. split; [reflexivity|]. split; [intros x; cbn; apply store_put|].
    split; [exact Hb|]. split; [now left|now left].
  - unfold next_addr in H. rewrite (proj2 (N.ltb_lt (cur + n) two64)) in H by lia.
    assert (Hls : lenN (slice data n (lenN data - n)) = lenN data - n) by (rewrite lenN_slice; lia).
    apply IH in H as (k & Hk & Hreg & Hput & Hrb & Hmax & Ho).
    + rewrite Hls in *. exists (n + k). split; [lia|]. split; [exact Hreg|]. split; [|split; [|split]].
      * intros x. rewrite Hput. rewrite (put_ext _ (put (gm_byte m) cur (slice data 0 n))); [|intros y; cbn; apply store_put].
        assert (En : lenN (slice data 0 n) = n) by (rewrite lenN_slice; lia).
        rewrite <- En at 2. rewrite put_app. f_equal.
        rewrite (slice_split_any data 0 n k). f_equal. rewrite slice_slice by lia. f_equal; lia.
      * now apply range_backed_app.
      * destruct Hmax as [->|Hm]; [left; lia|right]. rewrite N.add_assoc. exact Hm.
      * destruct Ho as [ -> |(_ & _ & Ht)]; [left; f_equal; lia|exfalso; lia].
    + exact Hw.
    + rewrite Hls. lia.
    + clearbody n. unfold lenN in *. lia.
Qed.

Lemma write_slice_exact be m data a m' o :
  wf_mem m = true -> write_slice be m data a = (m', o) ->
  exists k, k <= lenN data /\ regions m' = regions m /\
     (forall x, gm_byte m' x = put (gm_byte m) a (slice data 0 k) x) /\
     range_backed m a k /\ (k = lenN data \/ ~ backed m (a + k)) /\
     (data <> [] -> o = if k =? lenN data then Ok tt else Err tt).
Proof.
  intros Hw H. destruct data as [|b data'].
  - exists 0. rewrite slice_zero. assert (E : m' = m).
    { destruct be; cbn in H; [|now injection H]. destruct (find_region m a); [|now injection H].
      change (lenN (A := byte) []) with 0 in H. rewrite N.min_0_r in H. cbn in H. injection H as <- <-. destruct m; unfold mem_store; cbn; now rewrite app_nil_r. }
    subst m'. split; [apply N.le_refl|]. split; [reflexivity|]. split; [intros x; now rewrite put_nil|].
    split; [intros x ? ?; lia|]. split; [now left|]. intros []; reflexivity.
  - remember (b :: data') as data eqn:Ed.
    assert (0 < lenN data) as Hd by (subst; rewrite lenN_cons; lia).
    assert (write_slice be m data a =
      match write_loop (S (length data)) m a data 0 with
      | (m', Ok n) => (m', if n =? lenN data then Ok tt else Err tt)
      | (m', Err e) => (m', Err e)
      | (m', Panic p) => (m', Panic p)
      end) as E by (subst; destruct be; reflexivity).
    rewrite E in H. clear E.
    destruct (write_loop (S (length data)) m a data 0) as [m1 o1] eqn:El.
    apply write_loop_exact in El as (k & Hk & Hreg & Hput & Hrb & Hmax & Ho); [|exact Hw|exact Hd|lia].
    exists k. destruct Ho as [ -> |(-> & -> & _)]; injection H as <- <-.
    + repeat (split; [assumption|]). intros _. replace (0 + k) with k by lia. reflexivity.
    + repeat (split; [assumption|]). intros _. rewrite (proj2 (N.eqb_neq 0 (lenN data))) by lia. reflexivity.
Qed.

Lemma read_loop_exact be fuel : forall r m cur left total r' m' o,
  wf_mem m = true -> (read_measure be r m cur < fuel)%nat -> 0 < left ->
  never_faults r -> reads_enough be r ->
  read_loop be fuel r m cur left total = (r', m', o) ->
  exists k, k <= left /\ k <= rd_len r - rd_pos r /\ rd_same_env r r' /\ rd_pos r' = rd_pos r + k /\
     regions m' = regions m /\
     (forall x, gm_byte m' x = put (gm_byte m) cur (slice (rd_data r) (rd_pos r) k) x) /\
     range_backed m cur k /\ (k = left \/ k = rd_len r - rd_pos r \/ ~ backed m (cur + k)) /\
     (o = Ok (total + k) \/ o = Err tt /\ k < left).
Proof.
  induction fuel as [|fuel IH]; intros r m cur left total r' m' o Hw Hf Hl Hnf Hen H; [lia|].
  cbn [read_loop] in H. destruct (find_region m cur) as [rg|] eqn:Ef.
  2:{ apply find_region_none in Ef. injection H as <- <- <-. exists 0. rewrite !N.add_0_r, slice_zero.
      split; [lia|]. split; [lia|]. split; [apply rd_same_env_refl|]. split; [reflexivity|]. split; [reflexivity|].
      split; [intros x; now rewrite put_nil|]. split; [intros x ? ?; lia|]. split; [now right; right|].
      destruct be; [destruct (N.eqb_spec total 0)|]; [right|left|right]; auto. }
  apply find_region_some in Ef as (Hin & Hr1 & Hr2). destruct (wf_region m rg Hw Hin) as [Hlen Hend].
  set (n := N.min (r_base rg + r_len rg - cur) left) in *.
  destruct (read_volatile r n) as [r1 [bs|]] eqn:Er.
  2:{ unfold read_volatile in Er. rewrite Hnf in Er. discriminate. }
  pose proof (read_volatile_env _ _ _ _ Er) as Henv.
  apply read_volatile_some in Er as (Hk & Hdata & Hpos & Hmp & Hch & Hfa & _ & Hbs & Hkeq).
  set (adv := match be with TryAccess => lenN bs | GetSlices => n end) in *.
  assert (Hb : range_backed m cur n). { intros x Hx1 Hx2. exists rg. repeat split; [exact Hin| |]; lia. }
  assert (Hbb : range_backed m cur (lenN bs)). { intros x Hx1 Hx2. apply Hb; lia. }
  assert (Hst : forall x, gm_byte (mem_store m cur bs) x = put (gm_byte m) cur (slice (rd_data r) (rd_pos r) (lenN bs)) x).
  { intros x. cbn. rewrite <- Hbs. apply store_put. }
  assert (Hcase : adv = lenN bs \/ lenN bs = rd_len r - rd_pos r /\ lenN bs < adv).
  { unfold adv. destruct be; [now left|]. specialize (Hen (rd_ops r)). lia. }
  destruct (N.eqb_spec adv 0) as [E0|E0].
  { injection H as <- <- <-. exists (lenN bs). assert (lenN bs = 0) by (destruct be; unfold adv in *; lia).
    split; [lia|]. split; [lia|]. split; [exact Henv|]. split; [exact Hpos|]. split; [reflexivity|]. split; [exact Hst|].
    split; [exact Hbb|]. split; [right; left; destruct be; unfold adv in *; lia|]. left. f_equal. lia. }
  destruct (N.eqb_spec adv left) as [E1|E1].
  { injection H as <- <- <-. exists (lenN bs).
    assert (lenN bs <= adv) by (destruct be; unfold adv in *; lia).
    split; [lia|]. split; [lia|]. split; [exact Henv|]. split; [exact Hpos|]. split; [reflexivity|]. split; [exact Hst|].
    split; [exact Hbb|]. split; [lia|]. now left. }
  assert (Hadv : adv <= n /\ lenN bs <= adv) by (destruct be; unfold adv in *; lia).
  unfold next_addr in H. rewrite (proj2 (N.ltb_lt (cur + adv) two64)) in H by lia.
  apply IH in H as (k & Hk1 & Hk2 & Hk3 & Hk4 & Hk5 & Hk6 & Hk7 & Hk8 & Hk9).
  - unfold rd_len in *. rewrite Hdata, Hpos in *. exists (lenN bs + k).
    assert (Hz : lenN bs < adv -> k = 0) by lia.
    split; [lia|]. split; [lia|]. split; [eapply rd_same_env_trans; eassumption|]. split; [lia|]. split; [exact Hk5|].
    split; [|split; [|split]].
    + intros x. rewrite Hk6. rewrite (put_ext _ _ _ _ _ Hst).
      assert (Hlb : lenN (slice (rd_data r) (rd_pos r) (lenN bs)) = lenN bs) by (rewrite lenN_slice; lia).
      destruct Hcase as [Hc|(Hc & Hc2)].
      * rewrite Hc. rewrite <- Hlb at 2. rewrite put_app. now rewrite slice_split_any.
      * rewrite (Hz Hc2), N.add_0_r, slice_zero, put_nil. reflexivity.
    + destruct Hcase as [Hc|(Hc & Hc2)].
      * apply range_backed_app; [exact Hbb|]. rewrite <- Hc. exact Hk7.
      * rewrite (Hz Hc2), N.add_0_r. exact Hbb.
    + destruct Hcase as [Hc|(Hc & Hc2)]; [|right; left; lia].
      destruct Hk8 as [Hk8|[Hk8|Hk8]]; [left; lia|right; left; lia|right; right].
      rewrite N.add_assoc, <- Hc. exact Hk8.
    + destruct Hk9 as [ -> |(-> & Hk9)]; [left; f_equal; lia|right; split; [reflexivity|lia]].
  - exact Hw.
  - unfold read_measure in *. destruct be.
    + unfold rd_len in *. rewrite Hdata, Hpos. unfold adv in E0. lia.
    + cbn [mem_store regions]. pose proof (regions_after_dec (regions m) cur rg Hin Hr2).
      replace (cur + adv) with (r_base rg + r_len rg) by (unfold adv in *; lia). lia.
  - lia.
  - intros i. rewrite Hfa. apply Hnf.
  - destruct be; [exact I|]. intros i. unfold rd_len. rewrite Hdata, Hch. apply Hen.
Qed.

(** ** Related states *)
Definition calm (be : backend) (full : Prop) (r : reader) : Prop :=
  never_faults r /\ reads_enough be r /\ (full -> full_reads r).
Lemma calm_env be full r r' : rd_same_env r r' -> calm be full r -> calm be full r'.
Proof.
  intros (Ed & _ & Ec & Ef) (H1 & H2 & H3). split; [intros i; rewrite Ef; apply H1|]. split.
  - destruct be; [exact I|]. intros i. unfold rd_len. rewrite Ed, Ec. apply H2.
  - intros F i. unfold rd_len. rewrite Ed, Ec. now apply H3.
Qed.
(** Up to the position of the source. *)
Definition rel0 be full (r1 : reader) (m1 : gmem) (r2 : reader) (m2 : gmem) : Prop :=
  same_image r1 r2 /\ calm be full r1 /\ calm be full r2 /\ wf_mem m1 = true /\ wf_mem m2 = true /\ same_guest m1 m2.
Definition rel be full r1 m1 r2 m2 : Prop := rel0 be full r1 m1 r2 m2 /\ rd_pos r1 = rd_pos r2.

Definition lsim be full {A} (x : L A) : Prop := forall r1 m1 r2 m2 r1' m1' o1 r2' m2' o2,
  rel be full r1 m1 r2 m2 -> x r1 m1 = (r1', m1', o1) -> x r2 m2 = (r2', m2', o2) ->
  o1 = o2 /\ rel be full r1' m1' r2' m2'.

Lemma same_image_env r1 r2 r1' r2' : rd_same_env r1 r1' -> rd_same_env r2 r2' -> same_image r1 r2 -> same_image r1' r2'.
Proof. intros (E1 & E2 & _) (E3 & E4 & _) (H1 & H2). split; congruence. Qed.

Lemma rel_io be full r1 m1 r2 m2 r1' r2' :
  rel0 be full r1 m1 r2 m2 -> rd_same_env r1 r1' -> rd_same_env r2 r2' -> rd_pos r1' = rd_pos r2' -> rel be full r1' m1 r2' m2.
Proof.
  intros (H1 & H2 & H3 & H4) E1 E2 P. split; [|exact P].
  split; [exact (same_image_env _ _ _ _ E1 E2 H1)|]. split; [exact (calm_env _ _ _ _ E1 H2)|].
  split; [exact (calm_env _ _ _ _ E2 H3)|exact H4].
Qed.

(** The same piece put into both memories. *)
Lemma same_guest_put m1 m2 m1' m2' a bs :
  same_guest m1 m2 -> regions m1' = regions m1 -> regions m2' = regions m2 ->
  (forall x, gm_byte m1' x = put (gm_byte m1) a bs x) -> (forall x, gm_byte m2' x = put (gm_byte m2) a bs x) ->
  same_guest m1' m2'.
Proof.
  intros (Hb & Hy) R1 R2 P1 P2. split.
  - intros x. rewrite (backed_regions m1 m1' x R1), (backed_regions m2 m2' x R2). apply Hb.
  - intros x Hx. rewrite (backed_regions m1 m1' x R1) in Hx. rewrite P1, P2. unfold put.
    destruct ((a <=? x) && (x <? a + lenN bs)); [reflexivity|now apply Hy].
Qed.

Lemma same_guest_range m1 m2 a n : same_guest m1 m2 -> range_backed m1 a n -> range_backed m2 a n.
Proof. intros (Hb & _) H x Hx1 Hx2. apply Hb. now apply H. Qed.
Lemma same_guest_sym m1 m2 : same_guest m1 m2 -> same_guest m2 m1.
Proof. intros (H1 & H2). split; [intros a; symmetry; apply H1|]. intros a Ha. symmetry. apply H2. now apply H1. Qed.

Lemma extent_unique m1 m2 a left rem k1 k2 : same_guest m1 m2 ->
  k1 <= left -> k1 <= rem -> range_backed m1 a k1 -> (k1 = left \/ k1 = rem \/ ~ backed m1 (a + k1)) ->
  k2 <= left -> k2 <= rem -> range_backed m2 a k2 -> (k2 = left \/ k2 = rem \/ ~ backed m2 (a + k2)) -> k1 = k2.
Proof.
  intros (Hb & _) A1 A2 A3 A4 B1 B2 B3 B4. destruct (N.lt_trichotomy k1 k2) as [H|[H|H]]; [exfalso|exact H|exfalso].
  - destruct A4 as [A4|[A4|A4]]; try lia. apply A4. apply Hb. apply B3; lia.
  - destruct B4 as [B4|[B4|B4]]; try lia. apply B4. apply Hb. apply A3; lia.
Qed.

Lemma lsim_copy be full a n e : lsim be full (lcopy be a n e).
Proof.
  intros r1 m1 r2 m2 r1' m1' o1 r2' m2' o2 HR E1 E2. unfold lcopy in *.
  destruct (read_exact_volatile_from be r1 m1 a n) as [[s1 n1] p1] eqn:F1.
  destruct (read_exact_volatile_from be r2 m2 a n) as [[s2 n2] p2] eqn:F2.
  assert (H : p1 = p2 /\ rel be full s1 n1 s2 n2).
  { clear E1 E2. pose proof (proj1 HR) as HR0. destruct HR as (((Id & Im) & C1 & C2 & W1 & W2 & G) & P).
    destruct (N.eq_dec n 0) as [ -> |Hn].
    - destruct be; cbn in F1, F2.
      + destruct (find_region m1 a) as [g1|] eqn:D1, (find_region m2 a) as [g2|] eqn:D2.
        * rewrite N.min_0_r in F1, F2.
          destruct (read_volatile r1 0) as [t1 [b1|]] eqn:V1; [|unfold read_volatile in V1; rewrite (proj1 C1) in V1; discriminate].
          destruct (read_volatile r2 0) as [t2 [b2|]] eqn:V2; [|unfold read_volatile in V2; rewrite (proj1 C2) in V2; discriminate].
          pose proof (read_volatile_env _ _ _ _ V1) as Env1. pose proof (read_volatile_env _ _ _ _ V2) as Env2.
          apply read_volatile_some in V1 as (K1 & _ & Q1 & _). apply read_volatile_some in V2 as (K2 & _ & Q2 & _).
          assert (Z1 : lenN b1 = 0) by lia. assert (Z2 : lenN b2 = 0) by lia. rewrite Z1 in *. rewrite Z2 in *.
          change (0 =? 0) with true in *. cbn in F1, F2. change (0 =? 0) with true in *.
          assert (b1 = []) by (destruct b1; [reflexivity|rewrite lenN_cons in Z1; lia]).
          assert (b2 = []) by (destruct b2; [reflexivity|rewrite lenN_cons in Z2; lia]). subst b1 b2.
          inversion F1; inversion F2; subst. split; [reflexivity|]. cbn [store].
          replace (mem_store m1 a []) with m1 by (destruct m1; unfold mem_store; cbn; now rewrite app_nil_r).
          replace (mem_store m2 a []) with m2 by (destruct m2; unfold mem_store; cbn; now rewrite app_nil_r).
          apply (rel_io _ full r1 m1 r2 m2 s1 s2 HR0 Env1 Env2). lia.
        * exfalso. apply find_region_none in D2. apply D2. apply (proj1 G). apply find_region_backed. eauto.
        * exfalso. apply find_region_none in D1. apply D1. apply (proj1 G). apply find_region_backed. eauto.
        * inversion F1; inversion F2; subst. split; [reflexivity|]. split; assumption.
      + inversion F1; inversion F2; subst. split; [reflexivity|]. split; assumption.
    - rewrite rev_unfold in F1, F2 by auto.
      destruct (read_loop be _ r1 m1 a n 0) as [[t1 l1] q1] eqn:L1. destruct (read_loop be _ r2 m2 a n 0) as [[t2 l2] q2] eqn:L2.
      apply read_loop_exact in L1 as (k1 & A1 & A2 & A3 & A4 & A5 & A6 & A7 & A8 & A9); [|exact W1|apply read_measure_fuel|lia|apply C1|apply C1].
      apply read_loop_exact in L2 as (k2 & B1 & B2 & B3 & B4 & B5 & B6 & B7 & B8 & B9); [|exact W2|apply read_measure_fuel|lia|apply C2|apply C2].
      unfold rd_len in *. rewrite <- Id, <- P in *.
      assert (k1 = k2) by (eapply (extent_unique m1 m2 a n); eassumption). subst k2.
      assert (X1 : s1 = t1 /\ n1 = l1 /\ p1 = if k1 =? n then Ok tt else Err tt).
      { destruct A9 as [ -> |(-> & A9)]; injection F1 as <- <- <-; split; [reflexivity|split; reflexivity|reflexivity|split; [reflexivity|]].
        now rewrite (proj2 (N.eqb_neq k1 n)) by lia. }
      assert (X2 : s2 = t2 /\ n2 = l2 /\ p2 = if k1 =? n then Ok tt else Err tt).
      { destruct B9 as [ -> |(-> & B9)]; injection F2 as <- <- <-; split; [reflexivity|split; reflexivity|reflexivity|split; [reflexivity|]].
        now rewrite (proj2 (N.eqb_neq k1 n)) by lia. }
      destruct X1 as (-> & -> & ->), X2 as (-> & -> & ->). split; [reflexivity|].
      assert (HR1 : rel0 be full r1 l1 r2 l2).
      { split; [split; assumption|]. split; [assumption|]. split; [assumption|].
        split; [rewrite <- W1; now apply wf_mem_regions|]. split; [rewrite <- W2; now apply wf_mem_regions|].
        eapply same_guest_put; eassumption. }
      apply (rel_io be full r1 l1 r2 l2 t1 t2 HR1 A3 B3). congruence. }
  destruct H as (-> & H). destruct p2 as [u|u|p]; inversion E1; inversion E2; subst; split; auto.
Qed.

(** ** Source operations *)
Definition iosim be full {A} (op : reader -> reader * option A) : Prop := forall r1 r2 r1' a1 r2' a2,
  same_image r1 r2 -> rd_pos r1 = rd_pos r2 -> calm be full r1 -> calm be full r2 ->
  op r1 = (r1', a1) -> op r2 = (r2', a2) ->
  a1 = a2 /\ rd_same_env r1 r1' /\ rd_same_env r2 r2' /\ rd_pos r1' = rd_pos r2'.
Lemma iosim_seek_start be full p : iosim be full (fun r => seek_start r p).
Proof.
  intros r1 r2 r1' a1 r2' a2 (Id & Im) P (C1 & _) (C2 & _) E1 E2. unfold seek_start in *. rewrite C1 in E1. rewrite C2 in E2.
  rewrite <- Im in E2. destruct (rd_maxpos r1 <? p); inversion E1; inversion E2; subst; auto using rd_same_env_step.
Qed.
Lemma iosim_seek_end be full : iosim be full seek_end.
Proof.
  intros r1 r2 r1' a1 r2' a2 (Id & Im) P (C1 & _) (C2 & _) E1 E2. unfold seek_end, rd_len in *. rewrite C1 in E1. rewrite C2 in E2.
  rewrite <- Id in E2. inversion E1; inversion E2; subst; auto using rd_same_env_step.
Qed.
Lemma iosim_seek_cur be full d : iosim be full (fun r => seek_cur r d).
Proof.
  intros r1 r2 r1' a1 r2' a2 (Id & Im) P (C1 & _) (C2 & _) E1 E2. unfold seek_cur in *. rewrite C1 in E1. rewrite C2 in E2.
  rewrite <- Im, <- P in E2. destruct ((_ <? 0)%Z || _); inversion E1; inversion E2; subst; auto using rd_same_env_step.
Qed.
Lemma iosim_read_exact be full n : iosim be full (fun r => read_exact r n).
Proof.
  intros r1 r2 r1' a1 r2' a2 (Id & Im) P (C1 & _) (C2 & _) E1 E2. unfold read_exact, rd_len in *. rewrite C1 in E1. rewrite C2 in E2.
  rewrite <- Id, <- P in E2. destruct (_ <? _); inversion E1; inversion E2; subst; auto using rd_same_env_step.
Qed.
Lemma iosim_read_header be : iosim be True read_header.
Proof.
  intros r1 r2 r1' a1 r2' a2 (Id & Im) P (C1 & _ & F1) (C2 & _ & F2) E1 E2. unfold read_header, read_volatile in *.
  rewrite C1 in E1. rewrite C2 in E2. unfold rd_len in *. rewrite <- Id, <- P in E2.
  specialize (F1 I (rd_ops r1)). specialize (F2 I (rd_ops r2)). unfold rd_len in *. rewrite <- Id in F2. cbv zeta in *.
  assert (K : forall c, lenN (rd_data r1) <= c -> N.min (size setup_header) (N.min (lenN (rd_data r1) - rd_pos r1) (N.max 1 c)) =
    N.min (size setup_header) (lenN (rd_data r1) - rd_pos r1)) by (intros c Hc; lia).
  rewrite K in E1 by exact F1. rewrite K in E2 by exact F2.
  inversion E1; inversion E2; subst. cbn. auto using rd_same_env_step.
Qed.

Lemma lsim_io be full {A} (op : reader -> reader * option A) e : iosim be full op -> lsim be full (lio op e).
Proof.
  intros H r1 m1 r2 m2 r1' m1' o1 r2' m2' o2 (H0 & P) E1 E2. unfold lio in *.
  destruct (op r1) as [s1 a1] eqn:F1. destruct (op r2) as [s2 a2] eqn:F2.
  pose proof H0 as (I & C1 & C2 & _). destruct (H _ _ _ _ _ _ I P C1 C2 F1 F2) as (-> & X1 & X2 & Q).
  destruct a2; inversion E1; inversion E2; subst; split; try reflexivity; eapply rel_io; eassumption.
Qed.
Lemma lsim_pure be full {A} (o : outcome lerror A) : lsim be full (lpure o).
Proof. intros r1 m1 r2 m2 r1' m1' o1 r2' m2' o2 H E1 E2. unfold lpure in *. inversion E1; inversion E2; subst. auto. Qed.
Lemma lsim_ret be full {A} (a : A) : lsim be full (lret a).
Proof. apply lsim_pure. Qed.
Lemma lsim_fail be full {A} e : lsim be full (@lfail A e).
Proof. apply lsim_pure. Qed.
Lemma lsim_bind be full {A B} (x : L A) (k : A -> L B) : lsim be full x -> (forall a, lsim be full (k a)) -> lsim be full (lbind x k).
Proof.
  intros Hx Hk r1 m1 r2 m2 r1' m1' o1 r2' m2' o2 HR E1 E2. unfold lbind in *.
  destruct (x r1 m1) as [[s1 n1] p1] eqn:F1. destruct (x r2 m2) as [[s2 n2] p2] eqn:F2.
  destruct (Hx _ _ _ _ _ _ _ _ _ _ HR F1 F2) as (-> & HR').
  destruct p2 as [a|e|p]; [eapply Hk; eassumption| |]; inversion E1; inversion E2; subst; auto.
Qed.

Create HintDb sim.
#[export] Hint Resolve lsim_pure lsim_ret lsim_fail lsim_copy iosim_seek_start iosim_seek_end iosim_seek_cur iosim_read_exact iosim_read_header : sim.
Ltac sim :=
  repeat first
    [ solve [auto with sim]
    | apply lsim_io; auto with sim; fail
    | apply lsim_bind; [|intros ?]
    | match goal with |- lsim _ _ (match ?x with _ => _ end) => destruct x end
    | progress cbv zeta ].

Lemma note_loop_sim be full bld phdr fuel : forall rs nhdr, lsim be full (note_loop bld fuel phdr rs nhdr).
Proof. induction fuel as [|fuel IH]; intros rs nhdr; cbn [note_loop]; sim. Qed.
Lemma parse_elf_note_sim be full bld phdr : lsim be full (parse_elf_note bld phdr).
Proof.
  unfold parse_elf_note. apply lsim_bind; [apply lsim_io; auto with sim|intros _]. apply lsim_bind; [|intros res; sim].
  intros r1 m1 r2 m2 r1' m1' o1 r2' m2' o2 HR E1 E2.
  assert (E : note_fuel r2 = note_fuel r1) by (unfold note_fuel; destruct HR as (((Id & _) & _) & _); now rewrite Id).
  rewrite E in E2. eapply note_loop_sim; eassumption.
Qed.
#[export] Hint Resolve parse_elf_note_sim : sim.
Lemma read_phdrs_sim be full n : lsim be full (read_phdrs n).
Proof. induction n; cbn [read_phdrs]; sim. Qed.
Lemma load_phdrs_sim be full bld off ps : forall kend cap, lsim be full (load_phdrs bld be off ps kend cap).
Proof.
  induction ps as [|p ps IH]; intros kend cap; cbn [load_phdrs]; sim.
Qed.
#[export] Hint Resolve read_phdrs_sim load_phdrs_sim : sim.

(** ** Whole loads; the source may stand anywhere *)
Lemma start_sim be full {A B} (op : reader -> reader * option A) e (k : A -> L B) :
  (forall r1 r2 r1' a1 r2' a2,
    same_image r1 r2 -> calm be full r1 -> calm be full r2 -> op r1 = (r1', a1) -> op r2 = (r2', a2) ->
    a1 = a2 /\ rd_same_env r1 r1' /\ rd_same_env r2 r2' /\ (a1 <> None -> rd_pos r1' = rd_pos r2')) ->
  (forall a, lsim be full (k a)) ->
  forall r1 m1 r2 m2 r1' m1' o1 r2' m2' o2, rel0 be full r1 m1 r2 m2 ->
  lbind (lio op e) k r1 m1 = (r1', m1', o1) -> lbind (lio op e) k r2 m2 = (r2', m2', o2) ->
  o1 = o2 /\ same_guest m1' m2'.
Proof.
  intros H Hk r1 m1 r2 m2 r1' m1' o1 r2' m2' o2 H0 E1 E2. unfold lbind, lio in *.
  destruct (op r1) as [s1 a1] eqn:F1. destruct (op r2) as [s2 a2] eqn:F2.
  pose proof H0 as (I & C1 & C2 & _). destruct (H _ _ _ _ _ _ I C1 C2 F1 F2) as (-> & X1 & X2 & Q).
  destruct a2 as [a|].
  - destruct (Hk a s1 m1 s2 m2 r1' m1' o1 r2' m2' o2) as (-> & HR); [|exact E1|exact E2|].
    + apply (rel_io _ _ _ _ _ _ _ _ H0 X1 X2). apply Q. discriminate.
    + split; [reflexivity|]. apply HR.
  - inversion E1; inversion E2; subst. split; [reflexivity|]. apply H0.
Qed.
Lemma start_seek_start be full p : forall r1 r2 r1' a1 r2' a2,
    same_image r1 r2 -> calm be full r1 -> calm be full r2 -> seek_start r1 p = (r1', a1) -> seek_start r2 p = (r2', a2) ->
    a1 = a2 /\ rd_same_env r1 r1' /\ rd_same_env r2 r2' /\ (a1 <> None -> rd_pos r1' = rd_pos r2').
Proof.
  intros r1 r2 r1' a1 r2' a2 (Id & Im) (C1 & _) (C2 & _) E1 E2. unfold seek_start in *. rewrite C1 in E1. rewrite C2 in E2.
  rewrite <- Im in E2. destruct (rd_maxpos r1 <? p); inversion E1; inversion E2; subst; auto using rd_same_env_step.
  split; [reflexivity|]. split; [apply rd_same_env_step|]. split; [apply rd_same_env_step|]. intros []; reflexivity.
Qed.
Lemma start_seek_end be full : forall r1 r2 r1' a1 r2' a2,
    same_image r1 r2 -> calm be full r1 -> calm be full r2 -> seek_end r1 = (r1', a1) -> seek_end r2 = (r2', a2) ->
    a1 = a2 /\ rd_same_env r1 r1' /\ rd_same_env r2 r2' /\ (a1 <> None -> rd_pos r1' = rd_pos r2').
Proof.
  intros r1 r2 r1' a1 r2' a2 (Id & Im) (C1 & _) (C2 & _) E1 E2. unfold seek_end, rd_len in *. rewrite C1 in E1. rewrite C2 in E2.
  rewrite <- Id in E2. inversion E1; inversion E2; subst; auto using rd_same_env_step.
Qed.

Definition loads_alike be full {A} (x : L A) : Prop := forall r1 m1 r2 m2 r1' m1' o1 r2' m2' o2,
  rel0 be full r1 m1 r2 m2 -> x r1 m1 = (r1', m1', o1) -> x r2 m2 = (r2', m2', o2) -> o1 = o2 /\ same_guest m1' m2'.
Lemma elf_load_alike be full bld off h : loads_alike be full (elf_load bld be off h).
Proof.
  unfold elf_load. intros r1 m1 r2 m2 r1' m1' o1 r2' m2' o2. apply start_sim; [apply start_seek_start|]. intros _.
  sim.
Qed.
Lemma bz_load_alike be off h : loads_alike be True (bz_load be off h).
Proof. unfold bz_load. intros r1 m1 r2 m2 r1' m1' o1 r2' m2' o2. apply start_sim; [apply start_seek_end|]. intros k. sim. Qed.
Lemma pe_load_alike be full a off h : loads_alike be full (pe_load a be off h).
Proof. unfold pe_load. intros r1 m1 r2 m2 r1' m1' o1 r2' m2' o2. apply start_sim; [apply start_seek_end|]. intros k. sim. Qed.
Lemma load_dtb_alike be full a : loads_alike be full (load_dtb be a).
Proof. unfold load_dtb. intros r1 m1 r2 m2 r1' m1' o1 r2' m2' o2. apply start_sim; [apply start_seek_end|]. intros k. sim. Qed.

(** ** Command line and boot parameters *)
Definition mrel (m1 m2 : gmem) : Prop := wf_mem m1 = true /\ wf_mem m2 = true /\ same_guest m1 m2.
Lemma mrel_put m1 m2 m1' m2' a bs :
  mrel m1 m2 -> regions m1' = regions m1 -> regions m2' = regions m2 ->
  (forall x, gm_byte m1' x = put (gm_byte m1) a bs x) -> (forall x, gm_byte m2' x = put (gm_byte m2) a bs x) ->
  mrel m1' m2'.
Proof.
  intros (W1 & W2 & G) R1 R2 P1 P2. split; [rewrite <- W1; now apply wf_mem_regions|].
  split; [rewrite <- W2; now apply wf_mem_regions|]. eapply same_guest_put; eassumption.
Qed.
Lemma mem_ext_same m m' : regions m' = regions m -> (forall x, gm_byte m' x = gm_byte m x) -> forall n, mrel m n -> mrel m' n.
Proof.
  intros R B n (W1 & W2 & G1 & G2). split; [rewrite <- W1; now apply wf_mem_regions|]. split; [exact W2|]. split.
  - intros a. rewrite (backed_regions m m' a R). apply G1.
  - intros a Ha. rewrite (backed_regions m m' a R) in Ha. rewrite B. now apply G2.
Qed.

Lemma write_slice_sim be m1 m2 data a m1' o1 m2' o2 :
  mrel m1 m2 -> write_slice be m1 data a = (m1', o1) -> write_slice be m2 data a = (m2', o2) -> o1 = o2 /\ mrel m1' m2'.
Proof.
  intros HR E1 E2. pose proof HR as (W1 & W2 & G).
  pose proof (write_slice_exact _ _ _ _ _ _ W1 E1) as (k1 & A1 & A2 & A3 & A4 & A5 & A6).
  pose proof (write_slice_exact _ _ _ _ _ _ W2 E2) as (k2 & B1 & B2 & B3 & B4 & B5 & B6).
  assert (k1 = k2).
  { eapply (extent_unique m1 m2 a (lenN data) (lenN data)); try eassumption; intuition. }
  subst k2. split; [|eapply mrel_put; eassumption].
  destruct data as [|b data].
  - destruct be; [|cbn in E1, E2; congruence]. cbn in E1, E2. change (lenN (A := byte) []) with 0 in *.
    destruct (find_region m1 a) eqn:D1, (find_region m2 a) eqn:D2.
    + rewrite N.min_0_r in E1, E2. cbn in E1, E2. inversion E1; inversion E2; reflexivity.
    + exfalso. apply find_region_none in D2. apply D2. apply (proj1 G). apply find_region_backed. eauto.
    + exfalso. apply find_region_none in D1. apply D1. apply (proj1 G). apply find_region_backed. eauto.
    + cbn in E1, E2. inversion E1; inversion E2; reflexivity.
  - rewrite A6, B6 by discriminate. reflexivity.
Qed.

Lemma last_addr_sim m1 m2 : mrel m1 m2 -> last_addr m1 = last_addr m2.
Proof.
  assert (H : forall m1 m2, mrel m1 m2 -> last_addr m1 <= last_addr m2).
  { intros n1 n2 (W1 & W2 & Hb & _). destruct (regions n1) as [|r l] eqn:E; [unfold last_addr at 1; rewrite E; cbn; lia|].
    apply last_addr_backed. apply Hb. apply last_addr_attained; [congruence|exact W1]. }
  intros HR. apply N.le_antisymm; apply H; [exact HR|]. destruct HR as (W1 & W2 & G). split; [exact W2|]. split; [exact W1|]. now apply same_guest_sym.
Qed.
Lemma checked_offset_sim m1 m2 a n : mrel m1 m2 -> checked_offset m1 a n = checked_offset m2 a n.
Proof.
  intros (W1 & W2 & Hb & _). destruct (checked_offset m1 a n) as [x|] eqn:E.
  - apply checked_offset_iff in E as (E1 & E2 & E3). symmetry. apply checked_offset_iff. split; [exact E1|]. split; [exact E2|]. now apply Hb.
  - symmetry. apply checked_offset_none; [exact W2|]. apply checked_offset_none in E; [|exact W1]. intros H. apply E. now apply Hb.
Qed.

Definition msim {A} (op : gmem -> gmem * A) : Prop := forall m1 m2 m1' m2' a1 a2,
  mrel m1 m2 -> op m1 = (m1', a1) -> op m2 = (m2', a2) -> a1 = a2 /\ mrel m1' m2'.
Lemma load_cmdline_sim bld be addr c : msim (fun m => load_cmdline bld be m addr c).
Proof.
  intros m1 m2 m1' m2' a1 a2 HR E1 E2. unfold load_cmdline in *.
  destruct (as_cstring c) as [s|e|p]; [|inversion E1; inversion E2; subst; auto|inversion E1; inversion E2; subst; auto]. cbv zeta in *.
  destruct (usub bld _ 1) as [d|e|p]; [|inversion E1; inversion E2; subst; auto|inversion E1; inversion E2; subst; auto].
  destruct (checked_add addr d) as [e|]; [|inversion E1; inversion E2; subst; auto].
  rewrite <- (last_addr_sim _ _ HR) in E2. destruct (last_addr m1 <? e); [inversion E1; inversion E2; subst; auto|].
  destruct (write_slice be m1 _ addr) as [n1 p1] eqn:F1. destruct (write_slice be m2 _ addr) as [n2 p2] eqn:F2.
  destruct (write_slice_sim _ _ _ _ _ _ _ _ _ HR F1 F2) as (-> & HR'). destruct p2; inversion E1; inversion E2; subst; auto.
Qed.
Lemma check_and_write_sim be a bs e1 e2 : msim (fun m => check_and_write be m a bs e1 e2).
Proof.
  intros m1 m2 m1' m2' a1 a2 HR E1 E2. unfold check_and_write in *.
  rewrite <- (checked_offset_sim _ _ _ _ HR) in E2. destruct (checked_offset m1 a (lenN bs)); [|inversion E1; inversion E2; subst; auto].
  destruct (write_slice be m1 _ a) as [n1 p1] eqn:F1. destruct (write_slice be m2 _ a) as [n2 p2] eqn:F2.
  destruct (write_slice_sim _ _ _ _ _ _ _ _ _ HR F1 F2) as (-> & HR'). destruct p2; inversion E1; inversion E2; subst; auto.
Qed.
Lemma pvh_write_sim be p : msim (pvh_write_bootparams be p).
Proof.
  intros m1 m2 m1' m2' a1 a2 HR E1 E2. unfold pvh_write_bootparams in *.
  destruct (sections p) as [v|]; [|inversion E1; inversion E2; subst; auto].
  destruct (sections_start p) as [s|]; [|inversion E1; inversion E2; subst; auto].
  destruct (check_and_write be m1 s v _ _) as [n1 p1] eqn:F1. destruct (check_and_write be m2 s v _ _) as [n2 p2] eqn:F2.
  destruct (check_and_write_sim _ _ _ _ _ _ _ _ _ _ _ HR F1 F2) as (-> & HR1). destruct p2; try (inversion E1; inversion E2; subst; auto; fail).
  destruct (check_and_write be n1 _ _ _ _) as [k1 q1] eqn:F3. destruct (check_and_write be n2 _ _ _ _) as [k2 q2] eqn:F4.
  destruct (check_and_write_sim _ _ _ _ _ _ _ _ _ _ _ HR1 F3 F4) as (-> & HR2). destruct q2; try (inversion E1; inversion E2; subst; auto; fail).
  destruct (modules p) as [w|]; [|inversion E1; inversion E2; subst; auto].
  destruct (modules_start p) as [b|]; [|inversion E1; inversion E2; subst; auto].
  destruct (write_slice be k1 _ b) as [l1 o1] eqn:F5. destruct (write_slice be k2 _ b) as [l2 o2] eqn:F6.
  destruct (write_slice_sim _ _ _ _ _ _ _ _ _ HR2 F5 F6) as (-> & HR3). destruct o2; inversion E1; inversion E2; subst; auto.
Qed.

Lemma quiet_calm be r : ~ io_trouble be r -> calm be False r.
Proof. intros H. apply no_trouble_iff in H as (H1 & H2). split; [exact H1|]. split; [exact H2|]. intros []. Qed.
Lemma full_calm be r : ~ short_or_fault r -> calm be True r.
Proof.
  intros H. assert (F : full_reads r).
  { intros i. unfold rd_len. destruct (N.leb_spec (lenN (rd_data r)) (rd_chunk r i)); [assumption|]. exfalso. apply H. right. exists i. assumption. }
  split.
  - intros k i. destruct (rd_fault r k i) eqn:E; [|reflexivity]. exfalso. apply H. left. eauto.
  - split; [destruct be; [exact I|exact F]|intros _; exact F].
Qed.

Lemma perform_alike bld be t1 t2 m1 m2 m1' m2' x1 x2 :
  wf_mem m1 = true -> wf_mem m2 = true -> same_guest m1 m2 -> same_call t1 t2 -> steady be t1 -> steady be t2 ->
  perform bld be t1 m1 = (m1', x1) -> perform bld be t2 m2 = (m2', x2) -> x1 = x2 /\ same_guest m1' m2'.
Proof.
  intros W1 W2 G HC S1 S2 E1 E2. assert (HM : mrel m1 m2) by (split; [exact W1|split; assumption]).
  destruct t1, t2; try contradiction; cbn [same_call steady perform] in *.
  - destruct HC as (<- & <- & I).
    destruct (elf_load bld be off highmem image m1) as [[r1 n1] o1] eqn:F1. destruct (elf_load bld be off highmem image0 m2) as [[r2 n2] o2] eqn:F2.
    destruct (elf_load_alike be False bld off highmem image m1 image0 m2 _ _ _ _ _ _ (conj I (conj (quiet_calm _ _ S1) (conj (quiet_calm _ _ S2) HM))) F1 F2) as (-> & G').
    inversion E1; inversion E2; subst. auto.
  - destruct HC as (<- & <- & I).
    destruct (bz_load be off highmem image m1) as [[r1 n1] o1] eqn:F1. destruct (bz_load be off highmem image0 m2) as [[r2 n2] o2] eqn:F2.
    destruct (bz_load_alike be off highmem image m1 image0 m2 _ _ _ _ _ _ (conj I (conj (full_calm _ _ S1) (conj (full_calm _ _ S2) HM))) F1 F2) as (-> & G').
    inversion E1; inversion E2; subst. auto.
  - destruct HC as (<- & <- & I).
    destruct (pe_load a be off highmem image m1) as [[r1 n1] o1] eqn:F1. destruct (pe_load a be off highmem0 image0 m2) as [[r2 n2] o2] eqn:F2.
    change (pe_load a be off highmem0 image0 m2) with (pe_load a be off highmem image0 m2) in F2.
    destruct (pe_load_alike be False a off highmem image m1 image0 m2 _ _ _ _ _ _ (conj I (conj (quiet_calm _ _ S1) (conj (quiet_calm _ _ S2) HM))) F1 F2) as (-> & G').
    inversion E1; inversion E2; subst. auto.
  - destruct HC as (<- & I).
    destruct (load_dtb be addr image m1) as [[r1 n1] o1] eqn:F1. destruct (load_dtb be addr image0 m2) as [[r2 n2] o2] eqn:F2.
    destruct (load_dtb_alike be False addr image m1 image0 m2 _ _ _ _ _ _ (conj I (conj (quiet_calm _ _ S1) (conj (quiet_calm _ _ S2) HM))) F1 F2) as (-> & G').
    inversion E1; inversion E2; subst. auto.
  - destruct HC as (<- & <-).
    destruct (load_cmdline bld be m1 addr c) as [n1 o1] eqn:F1. destruct (load_cmdline bld be m2 addr c) as [n2 o2] eqn:F2.
    destruct (load_cmdline_sim _ _ _ _ _ _ _ _ _ _ HM F1 F2) as (-> & _ & _ & G'). inversion E1; inversion E2; subst. auto.
  - subst p0. destruct (linux_write_bootparams be p m1) as [n1 o1] eqn:F1. destruct (linux_write_bootparams be p m2) as [n2 o2] eqn:F2.
    destruct (check_and_write_sim _ _ _ _ _ _ _ _ _ _ _ HM F1 F2) as (-> & _ & _ & G'). inversion E1; inversion E2; subst. auto.
  - subst p0. destruct (fdt_write_bootparams be p m1) as [n1 o1] eqn:F1. destruct (fdt_write_bootparams be p m2) as [n2 o2] eqn:F2.
    destruct (check_and_write_sim _ _ _ _ _ _ _ _ _ _ _ HM F1 F2) as (-> & _ & _ & G'). inversion E1; inversion E2; subst. auto.
  - subst p0. destruct (pvh_write_bootparams be p m1) as [n1 o1] eqn:F1. destruct (pvh_write_bootparams be p m2) as [n2 o2] eqn:F2.
    destruct (pvh_write_sim _ _ _ _ _ _ _ _ HM F1 F2) as (-> & _ & _ & G'). inversion E1; inversion E2; subst. auto.
Qed.
