(** Lemmas about guest memory accesses. *)
From Verif Require Import Base Base_proofs Io Mem SpecMem.

Lemma store_put f a bs x : store f a bs x = put f a bs x.
Proof.
  revert f a. induction bs as [|b bs IH]; intros f a; cbn [store].
  - unfold put. rewrite lenN_nil. replace (a + 0) with a by lia.
    destruct (N.leb_spec a x), (N.ltb_spec x a); cbn; try reflexivity; lia.
  - rewrite IH. unfold put, upd. rewrite lenN_cons.
    destruct (N.eqb_spec x a) as [->|Hne].
    + replace (a + 1 <=? a) with false by lia. cbn [andb].
      replace (a <=? a) with true by lia.
      replace (a <? a + (1 + lenN bs)) with true by lia.
      rewrite N.sub_diag. reflexivity.
    + destruct (N.leb_spec (a + 1) x), (N.ltb_spec x (a + 1 + lenN bs)); cbn [andb].
      * replace (a <=? x) with true by lia.
        replace (x <? a + (1 + lenN bs)) with true by lia. cbn [andb].
        replace (N.to_nat (x - a)) with (S (N.to_nat (x - (a + 1)))) by lia. reflexivity.
      * replace (x <? a + (1 + lenN bs)) with false by lia. now rewrite andb_false_r.
      * replace (a <=? x) with false by lia. reflexivity.
      * replace (a <=? x) with false by lia. reflexivity.
Qed.

Lemma put_out f a bs x : ~ in_range a (lenN bs) x -> put f a bs x = f x.
Proof.
  intros H. unfold put, in_range in *.
  destruct (N.leb_spec a x), (N.ltb_spec x (a + lenN bs)); cbn; try reflexivity. lia.
Qed.

Lemma put_in f a bs i b : nth_error bs (N.to_nat i) = Some b -> put f a bs (a + i) = b.
Proof.
  intros H. unfold put.
  assert (i < lenN bs) as Hi.
  { assert (N.to_nat i < length bs)%nat by (apply nth_error_Some; congruence). unfold lenN. lia. }
  replace (a <=? a + i) with true by lia.
  replace (a + i <? a + lenN bs) with true by lia. cbn [andb].
  replace (a + i - a) with i by lia.
  apply nth_error_nth. exact H.
Qed.

Lemma put_nil f a x : put f a [] x = f x.
Proof. apply put_out. unfold in_range. rewrite lenN_nil. lia. Qed.

Lemma put_ext f g a bs x : (forall y, f y = g y) -> put f a bs x = put g a bs x.
Proof. intros H. unfold put. destruct (_ && _); auto. Qed.

Lemma put_app f a l1 l2 x : put (put f a l1) (a + lenN l1) l2 x = put f a (l1 ++ l2) x.
Proof.
  unfold put. rewrite lenN_app.
  destruct (N.leb_spec (a + lenN l1) x), (N.ltb_spec x (a + lenN l1 + lenN l2)); cbn [andb].
  - replace (a <=? x) with true by lia.
    replace (x <? a + (lenN l1 + lenN l2)) with true by lia. cbn [andb].
    rewrite app_nth2 by (unfold lenN in *; lia).
    f_equal. unfold lenN in *. lia.
  - replace (x <? a + (lenN l1 + lenN l2)) with false by lia.
    replace (x <? a + lenN l1) with false by lia. now rewrite !andb_false_r.
  - destruct (N.leb_spec a x); cbn [andb]; [|reflexivity].
    replace (x <? a + lenN l1) with true by lia.
    replace (x <? a + (lenN l1 + lenN l2)) with true by lia.
    rewrite app_nth1 by (unfold lenN in *; lia). reflexivity.
  - lia.
Qed.

Lemma overlay_ext f g segs x : (forall y, f y = g y) -> overlay f segs x = overlay g segs x.
Proof.
  unfold overlay. revert f g. induction segs as [|s segs IH]; intros f g H; cbn [fold_left].
  - apply H.
  - apply IH. intros y. apply put_ext, H.
Qed.

Lemma overlay_app f s1 s2 : overlay f (s1 ++ s2) = overlay (overlay f s1) s2.
Proof. unfold overlay. apply fold_left_app. Qed.

Lemma overlay_out f segs x :
  (forall a bs, In (a, bs) segs -> ~ in_range a (lenN bs) x) -> overlay f segs x = f x.
Proof.
  revert f. induction segs as [|[a bs] segs IH]; intros f H; [reflexivity|].
  change (overlay (put f a bs) segs x = f x).
  rewrite IH.
  - apply put_out. apply H. left. reflexivity.
  - intros a' bs' Hin. apply H. right. exact Hin.
Qed.

(** regions *)
Lemma find_region_some m a r :
  find_region m a = Some r -> In r (regions m) /\ r_base r <= a /\ a < r_base r + r_len r.
Proof.
  unfold find_region. intros H. apply find_some in H as [Hin H].
  unfold region_has in H. split; [exact Hin|lia].
Qed.

Lemma find_region_backed m a : backed m a <-> exists r, find_region m a = Some r.
Proof.
  split.
  - intros (r & Hin & H1 & H2). destruct (find_region m a) eqn:E; [eauto|].
    unfold find_region in E. pose proof (find_none _ _ E r Hin) as H.
    unfold region_has in H. cbv beta in H. lia.
  - intros (r & H). apply find_region_some in H. exists r. tauto.
Qed.

Lemma find_region_none m a : find_region m a = None <-> ~ backed m a.
Proof.
  rewrite find_region_backed. destruct (find_region m a) as [r|]; split; intros H; try discriminate.
  - exfalso. apply H. eauto.
  - intros (r & ?). discriminate.
  - reflexivity.
Qed.

Lemma wf_region m r : wf_mem m = true -> In r (regions m) -> 0 < r_len r /\ r_base r + r_len r < two64.
Proof.
  unfold wf_mem. intros H Hin. rewrite forallb_forall in H. specialize (H r Hin). lia.
Qed.

Lemma backed_bound m x : wf_mem m = true -> backed m x -> x + 1 < two64.
Proof. intros Hw (r & Hin & H1 & H2). destruct (wf_region m r Hw Hin). lia. Qed.

Lemma range_backed_bound m a n :
  wf_mem m = true -> 0 < n -> range_backed m a n -> a + n < two64.
Proof.
  intros Hw Hn H. pose proof (backed_bound m (a + n - 1) Hw) as Hb.
  assert (backed m (a + n - 1)) as Hx by (apply H; lia). specialize (Hb Hx). lia.
Qed.

Lemma last_addr_ge m r : In r (regions m) -> r_base r + r_len r - 1 <= last_addr m.
Proof.
  unfold last_addr.
  assert (forall l acc, acc <= fold_left (fun acc r => N.max acc (r_base r + r_len r - 1)) l acc) as Hmono.
  { induction l as [|x l IH]; intros acc; cbn [fold_left]; [lia|]. specialize (IH (N.max acc (r_base x + r_len x - 1))). lia. }
  generalize 0 as acc. induction (regions m) as [|x l IH]; intros acc [].
  - subst. cbn [fold_left]. specialize (Hmono l (N.max acc (r_base r + r_len r - 1))). lia.
  - cbn [fold_left]. apply IH. assumption.
Qed.

Lemma last_addr_backed m x : backed m x -> x <= last_addr m.
Proof. intros (r & Hin & H1 & H2). pose proof (last_addr_ge m r Hin). lia. Qed.

Lemma last_addr_attained m :
  regions m <> [] -> wf_mem m = true -> backed m (last_addr m).
Proof.
  intros Hne Hw.
  assert (forall l acc,
    (exists r, In r l /\ fold_left (fun acc r => N.max acc (r_base r + r_len r - 1)) l acc = r_base r + r_len r - 1)
    \/ fold_left (fun acc r => N.max acc (r_base r + r_len r - 1)) l acc = acc) as H.
  { induction l as [|x l IH]; intros acc; cbn [fold_left]; [right; reflexivity|].
    destruct (IH (N.max acc (r_base x + r_len x - 1))) as [(r & Hin & E)|E].
    - left. exists r. split; [right; exact Hin|exact E].
    - destruct (N.leb_spec (r_base x + r_len x - 1) acc).
      + right. rewrite E. lia.
      + left. exists x. split; [left; reflexivity|rewrite E; lia]. }
  destruct (H (regions m) 0) as [(r & Hin & E)|E]; fold (last_addr m) in E.
  - destruct (wf_region m r Hw Hin). exists r. rewrite E. repeat split; [exact Hin| |]; lia.
  - destruct (regions m) as [|r0 l0] eqn:Er; [congruence|].
    assert (In r0 (regions m)) as Hin by (rewrite Er; left; reflexivity).
    destruct (wf_region m r0 Hw Hin). pose proof (last_addr_ge m r0 Hin) as Hge.
    exists r0. rewrite E in *. repeat split; [exact Hin| |]; lia.
Qed.

Lemma checked_offset_iff m base off a :
  checked_offset m base off = Some a <-> a = base + off /\ a < two64 /\ backed m a.
Proof.
  unfold checked_offset. destruct (checked_add base off) as [c|] eqn:E.
  - apply checked_add_some in E as [-> Hlt].
    destruct (find_region m (base + off)) as [r|] eqn:Ef; split.
    + intros H. injection H as <-. repeat split; auto.
      apply find_region_backed. eauto.
    + intros (-> & _ & _). reflexivity.
    + discriminate.
    + intros (-> & _ & Hb). apply find_region_none in Ef. contradiction.
  - apply checked_add_none in E. split; [discriminate|]. intros (-> & H & _). lia.
Qed.

Lemma checked_offset_none m base off :
  wf_mem m = true -> (checked_offset m base off = None <-> ~ backed m (base + off)).
Proof.
  intros Hw. destruct (checked_offset m base off) as [a|] eqn:E; split; intros H; try discriminate.
  - apply checked_offset_iff in E as (-> & _ & Hb). contradiction.
  - intros Hb. assert (checked_offset m base off = Some (base + off)); [|congruence].
    apply checked_offset_iff. repeat split; auto. pose proof (backed_bound m _ Hw Hb). lia.
  - reflexivity.
Qed.

(** frame *)
Lemma mem_same_refl m : mem_same m m.
Proof. split; reflexivity. Qed.
Lemma same_outside_refl m P : same_outside m m P.
Proof. split; reflexivity. Qed.
Lemma same_outside_trans m1 m2 m3 P :
  same_outside m1 m2 P -> same_outside m2 m3 P -> same_outside m1 m3 P.
Proof.
  intros [H1 H2] [H3 H4]. split; [congruence|]. intros x Hx. rewrite H4, H2; auto.
Qed.
Lemma same_outside_mono m1 m2 (P Q : N -> Prop) :
  (forall x, P x -> Q x) -> same_outside m1 m2 P -> same_outside m1 m2 Q.
Proof. intros HPQ [H1 H2]. split; [exact H1|]. intros x Hx. apply H2. auto. Qed.

Lemma mem_store_frame m a bs : same_outside m (mem_store m a bs) (in_range a (lenN bs)).
Proof. split; [reflexivity|]. intros x Hx. cbn. rewrite store_put. apply put_out. exact Hx. Qed.

Lemma backed_regions m m' x : regions m' = regions m -> (backed m' x <-> backed m x).
Proof. intros H. unfold backed. rewrite H. reflexivity. Qed.
Lemma range_backed_regions m m' a n : regions m' = regions m -> (range_backed m' a n <-> range_backed m a n).
Proof. intros H. unfold range_backed, backed. rewrite H. reflexivity. Qed.
Lemma wf_mem_regions m m' : regions m' = regions m -> wf_mem m' = wf_mem m.
Proof. intros H. unfold wf_mem. now rewrite H. Qed.
Lemma find_region_regions m m' a : regions m' = regions m -> find_region m' a = find_region m a.
Proof. intros H. unfold find_region. now rewrite H. Qed.

Lemma holds_at_put m m' a bs :
  (forall x, gm_byte m' x = put (gm_byte m) a bs x) -> holds_at m' a bs.
Proof. intros H i b Hb. rewrite H. apply put_in. exact Hb. Qed.

(** the write loop *)
Lemma write_loop_spec fuel : forall m cur data total m' o,
  wf_mem m = true -> 0 < lenN data -> (length data < fuel)%nat ->
  write_loop fuel m cur data total = (m', o) ->
  (exists k, k <= lenN data /\ regions m' = regions m /\
     (forall x, gm_byte m' x = put (gm_byte m) cur (slice data 0 k) x) /\
     range_backed m cur k /\
     ((o = Ok (total + k) /\ (k < lenN data -> ~ range_backed m cur (lenN data)))
      \/ (o = Err tt /\ k = 0 /\ total = 0 /\ ~ range_backed m cur (lenN data)))).
Proof.
  induction fuel as [|fuel IH]; intros m cur data total m' o Hw Hd Hf H; [lia|].
  cbn [write_loop] in H.
  destruct (find_region m cur) as [r|] eqn:Ef.
  2:{ apply find_region_none in Ef.
      assert (~ range_backed m cur (lenN data)) as Hnb.
      { intros Hb. apply Ef. apply Hb; lia. }
      injection H as <- <-. exists 0. split; [lia|]. split; [reflexivity|].
      split; [intros x; rewrite slice_zero; now rewrite put_nil|].
      split; [intros x Hx1 Hx2; lia|].
      destruct (N.eqb_spec total 0).
      - right. auto.
      - left. split; [f_equal; lia|auto]. }
  apply find_region_some in Ef as (Hin & Hr1 & Hr2).
  destruct (wf_region m r Hw Hin) as [Hlen Hend].
  set (cap := r_base r + r_len r - cur) in *.
  set (n := N.min cap (lenN data)) in *.
  assert (0 < n) as Hn by lia.
  assert (range_backed m cur n) as Hrb.
  { intros x Hx1 Hx2. exists r. repeat split; [exact Hin| |]; lia. }
  destruct (N.eqb_spec n 0); [lia|].
  destruct (N.eqb_spec n (lenN data)) as [Hall|Hpart].
  - injection H as <- <-. exists n. repeat split; try lia; auto.
    + intros x. cbn. apply store_put.
    + left. split; [reflexivity|lia].
  - unfold next_addr in H. replace (cur + n <? two64) with true in H by lia.
    assert (lenN (slice data 0 n) = n) as Hsl by (rewrite lenN_slice; lia).
    apply IH in H as (k & Hk & Hreg & Hput & Hrange & Ho).
    + rewrite lenN_slice in Hk, Ho.
      exists (n + k). split; [lia|]. split; [rewrite Hreg; reflexivity|]. split; [|split].
      * intros x. rewrite Hput.
        rewrite (put_ext _ (put (gm_byte m) cur (slice data 0 n)));
          [|intros y; cbn; apply store_put].
        rewrite <- Hsl at 2. rewrite put_app. f_equal.
        rewrite (slice_split data 0 (n + k) n) by lia.
        f_equal. rewrite slice_slice by lia.
        replace (n + 0) with n by lia. replace (0 + n) with n by lia.
        f_equal. lia.
      * intros x Hx1 Hx2. destruct (N.ltb_spec x (cur + n)).
        -- apply Hrb; lia.
        -- apply (proj1 (backed_regions m (mem_store m cur (slice data 0 n)) x eq_refl)).
           apply Hrange; lia.
      * assert (forall q, range_backed m cur (lenN data) -> q = lenN data - n ->
                  range_backed (mem_store m cur (slice data 0 n)) (cur + n) q) as Hsub.
        { intros q Hb -> x Hx1 Hx2. apply (proj2 (backed_regions m _ x eq_refl)). apply Hb; lia. }
        replace (N.min (lenN data - n) (lenN data - n)) with (lenN data - n) in * by lia.
        destruct Ho as [[-> Ho]|(-> & -> & ? & Ho)].
        -- left. split; [f_equal; lia|]. intros Hlt Hb. apply Ho; [lia|]. apply Hsub; auto.
        -- lia.
    + exact Hw.
    + rewrite lenN_slice. lia.
    + pose proof (lenN_slice data n (lenN data - n)). unfold lenN in *. lia.
Qed.

(** [write_slice]: complete, sound, and framed. *)
Lemma write_slice_spec be m data a m' o :
  wf_mem m = true -> write_slice be m data a = (m', o) ->
  (exists k, k <= lenN data /\ regions m' = regions m /\
     (forall x, gm_byte m' x = put (gm_byte m) a (slice data 0 k) x) /\
     range_backed m a k /\
     ((o = Ok tt /\ k = lenN data) \/ (o = Err tt /\ (~ range_backed m a (lenN data) \/ (be = TryAccess /\ data = [] /\ ~ backed m a))))).
Proof.
  intros Hw H.
  destruct data as [|b data'].
  - destruct be; cbn in H.
    + change (N.of_nat 0) with 0 in H. destruct (find_region m a) as [r|] eqn:Ef.
      * rewrite N.min_0_r in H. cbn in H. injection H as <- <-.
        exists 0. repeat split; try lia.
        -- intros x. now rewrite put_nil.
        -- intros x ? ?. lia.
        -- left. auto.
      * injection H as <- <-. exists 0. repeat split; try lia.
        -- intros x. now rewrite put_nil.
        -- intros x ? ?. lia.
        -- right. split; [reflexivity|]. right. repeat split. now apply find_region_none.
    + injection H as <- <-. exists 0. repeat split; try lia.
      -- intros x. now rewrite put_nil.
      -- intros x ? ?. lia.
      -- left. auto.
  - remember (b :: data') as data eqn:Ed.
    assert (0 < lenN data) as Hd by (subst; rewrite lenN_cons; lia).
    assert (write_slice be m data a =
      match write_loop (S (length data)) m a data 0 with
      | (m', Ok n) => (m', if n =? lenN data then Ok tt else Err tt)
      | (m', Err e) => (m', Err e)
      | (m', Panic p) => (m', Panic p)
      end) as E by (subst; destruct be; reflexivity).
    rewrite E in H. clear E.
    destruct (write_loop (S (length data)) m a data 0) as [m1 o1] eqn:El.
    apply write_loop_spec in El as (k & Hk & Hreg & Hput & Hrb & Ho); [|exact Hw|exact Hd|lia].
    exists k. destruct Ho as [[-> Ho]|(-> & -> & _ & Ho)].
    + injection H as <- <-. repeat split; auto.
      replace (0 + k) with k by lia.
      destruct (N.eqb_spec k (lenN data)).
      * left. auto.
      * right. split; [reflexivity|]. left. apply Ho. lia.
    + injection H as <- <-. repeat split; auto.
Qed.

(** The three facts users of [write_slice] need. *)
Lemma write_slice_ok be m data a m' :
  wf_mem m = true -> write_slice be m data a = (m', Ok tt) ->
  regions m' = regions m /\ (forall x, gm_byte m' x = put (gm_byte m) a data x)
  /\ range_backed m a (lenN data).
Proof.
  intros Hw H. apply write_slice_spec in H as (k & Hk & Hr & Hp & Hb & Ho); [|exact Hw].
  destruct Ho as [[_ ->]|[? _]]; [|discriminate].
  rewrite slice_full in Hp. auto.
Qed.

Lemma write_slice_complete be m data a :
  wf_mem m = true -> data <> [] -> range_backed m a (lenN data) ->
  exists m', write_slice be m data a = (m', Ok tt).
Proof.
  intros Hw Hne Hb. destruct (write_slice be m data a) as [m' o] eqn:E.
  apply write_slice_spec in E as (k & _ & _ & _ & _ & Ho); [|exact Hw].
  destruct Ho as [[-> _]|[_ [Ho|(_ & ? & _)]]]; [eauto|contradiction|contradiction].
Qed.

Lemma write_slice_frame be m data a m' o :
  wf_mem m = true -> write_slice be m data a = (m', o) ->
  same_outside m m' (in_range a (lenN data)) /\ (o = Ok tt \/ o = Err tt).
Proof.
  intros Hw H. apply write_slice_spec in H as (k & Hk & Hr & Hp & Hb & Ho); [|exact Hw].
  split.
  - split; [exact Hr|]. intros x Hx. rewrite Hp. apply put_out.
    rewrite lenN_slice. unfold in_range in *. lia.
  - destruct Ho as [[-> _]|[-> _]]; auto.
Qed.

(** Reader facts. *)
Lemma read_volatile_some r n r' bs :
  read_volatile r n = (r', Some bs) ->
  lenN bs <= n /\ rd_data r' = rd_data r /\ rd_pos r' = rd_pos r + lenN bs /\
  rd_maxpos r' = rd_maxpos r /\ rd_chunk r' = rd_chunk r /\ rd_fault r' = rd_fault r /\ rd_ops r' = S (rd_ops r) /\
  bs = slice (rd_data r) (rd_pos r) (lenN bs) /\
  lenN bs = N.min n (N.min (rd_len r - rd_pos r) (N.max 1 (rd_chunk r (rd_ops r)))).
Proof.
  unfold read_volatile. destruct (rd_fault r Reading (rd_ops r)); [discriminate|].
  intros H. injection H as <- <-.
  set (k := N.min n _).
  assert (lenN (slice (rd_data r) (rd_pos r) k) = k) as E.
  { rewrite lenN_slice. unfold rd_len in k. lia. }
  rewrite E. repeat split; try reflexivity. lia.
Qed.

Definition rd_same_env (r r' : reader) : Prop :=
  rd_data r' = rd_data r /\ rd_maxpos r' = rd_maxpos r /\
  rd_chunk r' = rd_chunk r /\ rd_fault r' = rd_fault r.

Lemma rd_same_env_refl r : rd_same_env r r.
Proof. repeat split. Qed.
Lemma rd_same_env_trans a b c : rd_same_env a b -> rd_same_env b c -> rd_same_env a c.
Proof. intros (?&?&?&?) (?&?&?&?). repeat split; congruence. Qed.
Lemma rd_same_env_step r p : rd_same_env r (rd_step r p).
Proof. repeat split. Qed.

Lemma read_volatile_env r n r' o : read_volatile r n = (r', o) -> rd_same_env r r'.
Proof.
  unfold read_volatile. destruct (rd_fault r Reading (rd_ops r)); intros H; injection H as <- <-;
    apply rd_same_env_step.
Qed.

(** Number of regions ending after [cur]: the termination measure of the slice walk. *)
Definition regions_after (l : list region) (cur : N) : nat :=
  length (filter (fun r => cur <? r_base r + r_len r) l).

Lemma regions_after_le l cur : (regions_after l cur <= length l)%nat.
Proof. unfold regions_after. induction l as [|x l IH]; cbn; [lia|]. destruct (_ <? _); cbn; lia. Qed.

Lemma regions_after_dec l cur r :
  In r l -> cur < r_base r + r_len r ->
  (regions_after l (r_base r + r_len r) < regions_after l cur)%nat.
Proof.
  unfold regions_after. intros Hin Hc.
  assert (forall l', le (length (filter (fun r0 => r_base r + r_len r <? r_base r0 + r_len r0) l'))
                      (length (filter (fun r0 => cur <? r_base r0 + r_len r0) l'))) as Hmono.
  { induction l' as [|x l' IH]; cbn; [lia|].
    destruct (N.ltb_spec (r_base r + r_len r) (r_base x + r_len x)),
      (N.ltb_spec cur (r_base x + r_len x)); cbn; lia. }
  induction l as [|x l IH]; [contradiction|]. destruct Hin as [->|Hin]; cbn.
  - replace (r_base r + r_len r <? r_base r + r_len r) with false by lia.
    replace (cur <? r_base r + r_len r) with true by lia. cbn. specialize (Hmono l). lia.
  - specialize (IH Hin). destruct (N.ltb_spec (r_base r + r_len r) (r_base x + r_len x)),
      (N.ltb_spec cur (r_base x + r_len x)); cbn; lia.
Qed.

(** Enough fuel for the read loop. *)
Definition read_measure (be : backend) (r : reader) (m : gmem) (cur : N) : nat :=
  match be with
  | TryAccess => N.to_nat (rd_len r - rd_pos r)
  | GetSlices => regions_after (regions m) cur
  end.

(** Frame, environment, no panic. *)
Lemma read_loop_frame be fuel : forall r m cur left total r' m' o,
  wf_mem m = true -> (read_measure be r m cur < fuel)%nat ->
  read_loop be fuel r m cur left total = (r', m', o) ->
  same_outside m m' (in_range cur left) /\ rd_same_env r r' /\
  (o = Err tt \/ exists n, o = Ok n).
Proof.
  induction fuel as [|fuel IH]; intros r m cur left total r' m' o Hw Hf H; [lia|].
  cbn [read_loop] in H.
  destruct (find_region m cur) as [rg|] eqn:Ef.
  2:{ injection H as <- <- <-. split; [apply same_outside_refl|]. split; [apply rd_same_env_refl|].
      destruct be; [|auto]. destruct (total =? 0); eauto. }
  apply find_region_some in Ef as (Hin & Hr1 & Hr2).
  destruct (wf_region m rg Hw Hin) as [Hlen Hend].
  set (n := N.min (r_base rg + r_len rg - cur) left) in *.
  destruct (read_volatile r n) as [r1 [bs|]] eqn:Er.
  2:{ injection H as <- <- <-. split; [apply same_outside_refl|].
      split; [eapply read_volatile_env; exact Er|auto]. }
  pose proof (read_volatile_env _ _ _ _ Er) as Henv.
  apply read_volatile_some in Er as (Hk & Hdata & Hpos & _ & _ & _ & _ & Hbs & Hkeq).
  set (adv := match be with TryAccess => lenN bs | GetSlices => n end) in *.
  assert (adv <= n) as Hadv by (destruct be; lia).
  assert (same_outside m (mem_store m cur bs) (in_range cur left)) as Hfr.
  { eapply same_outside_mono; [|apply mem_store_frame]. unfold in_range. intros x. lia. }
  destruct (N.eqb_spec adv 0).
  { injection H as <- <- <-. split; [exact Hfr|]. split; [exact Henv|eauto]. }
  destruct (N.eqb_spec adv left).
  { injection H as <- <- <-. split; [exact Hfr|]. split; [exact Henv|eauto]. }
  unfold next_addr in H. replace (cur + adv <? two64) with true in H by lia.
  apply IH in H as (H1 & H2 & H3).
  - split; [|split; [eapply rd_same_env_trans; eassumption|exact H3]].
    eapply same_outside_trans; [exact Hfr|].
    eapply same_outside_mono; [|exact H1]. unfold in_range. intros x. lia.
  - exact Hw.
  - unfold read_measure in *. destruct be.
    + unfold rd_len in *. rewrite Hdata, Hpos. lia.
    + cbn [mem_store regions]. pose proof (regions_after_dec (regions m) cur rg Hin Hr2).
      replace (cur + adv) with (r_base rg + r_len rg) by lia. lia.
Qed.

(** Soundness: if every byte asked for was transferred, the memory holds them. *)
Lemma read_loop_sound be fuel : forall r m cur left total r' m' n,
  wf_mem m = true -> (read_measure be r m cur < fuel)%nat ->
  0 < left ->
  read_loop be fuel r m cur left total = (r', m', Ok n) ->
  n <= total + left /\
  (n = total + left ->
   rd_pos r + left <= rd_len r /\
   rd_pos r' = rd_pos r + left /\
   range_backed m cur left /\
   (forall x, gm_byte m' x = put (gm_byte m) cur (slice (rd_data r) (rd_pos r) left) x)).
Proof.
  induction fuel as [|fuel IH]; intros r m cur left total r' m' n0 Hw Hf Hleft H; [lia|].
  cbn [read_loop] in H.
  destruct (find_region m cur) as [rg|] eqn:Ef.
  2:{ destruct be; [|discriminate]. destruct (total =? 0); [discriminate|].
      injection H as <- <- <-. split; lia. }
  apply find_region_some in Ef as (Hin & Hr1 & Hr2).
  destruct (wf_region m rg Hw Hin) as [Hlen Hend].
  set (n := N.min (r_base rg + r_len rg - cur) left) in *.
  destruct (read_volatile r n) as [r1 [bs|]] eqn:Er; [|discriminate].
  apply read_volatile_some in Er as (Hk & Hdata & Hpos & _ & _ & _ & _ & Hbs & Hkeq).
  set (adv := match be with TryAccess => lenN bs | GetSlices => n end) in *.
  assert (adv <= n /\ lenN bs <= adv) as [Hadv Hadv2] by (destruct be; lia).
  assert (range_backed m cur n) as Hrb.
  { intros x Hx1 Hx2. exists rg. repeat split; [exact Hin| |]; lia. }
  destruct (N.eqb_spec adv 0).
  { injection H as <- <- <-. split; lia. }
  destruct (N.eqb_spec adv left) as [Hall|Hpart].
  { injection H as <- <- <-. split; [lia|]. intros Heq.
    assert (lenN bs = left) as Hbl by lia.
    assert (n = left) as Hnl by lia.
    repeat split.
    - unfold rd_len in *. lia.
    - lia.
    - rewrite <- Hnl. exact Hrb.
    - intros x. cbn. rewrite store_put. rewrite Hbs at 1. now rewrite Hbl. }
  unfold next_addr in H. replace (cur + adv <? two64) with true in H by lia.
  apply IH in H as (H1 & H2).
  - split; [lia|]. intros Heq.
    assert (lenN bs = adv) as Hba by lia.
    destruct H2 as (Hp & Hp' & Hb & Hput); [lia|].
    unfold rd_len in *. rewrite Hdata, Hpos in *.
    split; [lia|]. split; [lia|]. split.
    + intros x Hx1 Hx2. destruct (N.ltb_spec x (cur + adv)).
      * apply Hrb; lia.
      * apply (proj1 (backed_regions m (mem_store m cur bs) x eq_refl)). apply Hb; lia.
    + intros x. rewrite Hput.
      rewrite (put_ext _ (put (gm_byte m) cur bs)); [|intros y; cbn; apply store_put].
      rewrite <- Hba at 1. rewrite put_app. f_equal.
      rewrite (slice_split (rd_data r) (rd_pos r) left adv) by lia.
      rewrite <- Hba. rewrite <- Hbs. reflexivity.
  - exact Hw.
  - unfold read_measure in *. destruct be.
    + unfold rd_len in *. rewrite Hdata, Hpos. lia.
    + cbn [mem_store regions]. pose proof (regions_after_dec (regions m) cur rg Hin Hr2).
      replace (cur + adv) with (r_base rg + r_len rg) by lia. lia.
  - lia.
Qed.

(** What "the source never fails" and "the source does not cut reads short" mean. *)
Definition never_faults (r : reader) : Prop := forall k i, rd_fault r k i = false.
Definition full_reads (r : reader) : Prop := forall i, rd_len r <= rd_chunk r i.
Definition reads_enough (be : backend) (r : reader) : Prop :=
  match be with TryAccess => True | GetSlices => full_reads r end.

Lemma read_loop_complete be fuel : forall r m cur left total,
  wf_mem m = true -> (read_measure be r m cur < fuel)%nat ->
  0 < left -> never_faults r -> reads_enough be r ->
  rd_pos r + left <= rd_len r -> range_backed m cur left ->
  exists r' m', read_loop be fuel r m cur left total = (r', m', Ok (total + left)).
Proof.
  induction fuel as [|fuel IH]; intros r m cur left total Hw Hf Hleft Hnf Hfull Hlen0 Hrb; [lia|].
  cbn [read_loop].
  destruct (proj1 (find_region_backed m cur)) as [rg Ef]; [apply Hrb; lia|].
  rewrite Ef. apply find_region_some in Ef as (Hin & Hr1 & Hr2).
  destruct (wf_region m rg Hw Hin) as [Hlen Hend].
  set (n := N.min (r_base rg + r_len rg - cur) left) in *.
  destruct (read_volatile r n) as [r1 [bs|]] eqn:Er.
  2:{ unfold read_volatile in Er. rewrite Hnf in Er. discriminate. }
  pose proof (read_volatile_env _ _ _ _ Er) as Henv.
  apply read_volatile_some in Er as (Hk & Hdata & Hpos & Hm & Hch & Hfa & _ & Hbs & Hkeq).
  assert (match be with TryAccess => lenN bs | GetSlices => n end = lenN bs) as ->.
  { destruct be; [reflexivity|]. cbn in Hfull. specialize (Hfull (rd_ops r)). lia. }
  assert (0 < lenN bs) by lia.
  destruct (N.eqb_spec (lenN bs) 0); [lia|].
  destruct (N.eqb_spec (lenN bs) left) as [Hall|Hpart].
  { eexists _, _. do 2 f_equal. lia. }
  unfold next_addr. replace (cur + lenN bs <? two64) with true by lia.
  destruct (IH r1 (mem_store m cur bs) (cur + lenN bs) (left - lenN bs) (total + lenN bs))
    as (r' & m' & E).
  - exact Hw.
  - unfold read_measure in *. destruct be.
    + unfold rd_len in *. rewrite Hdata, Hpos. lia.
    + cbn in Hfull. specialize (Hfull (rd_ops r)).
      cbn [mem_store regions]. pose proof (regions_after_dec (regions m) cur rg Hin Hr2).
      replace (cur + lenN bs) with (r_base rg + r_len rg) by lia. lia.
  - lia.
  - intros i. rewrite Hfa. apply Hnf.
  - destruct be; [exact I|]. cbn in *. intros i. unfold full_reads, rd_len in *. rewrite Hdata, Hch. apply Hfull.
  - unfold rd_len in *. rewrite Hdata, Hpos. lia.
  - intros x Hx1 Hx2. apply (proj2 (backed_regions m (mem_store m cur bs) x eq_refl)). apply Hrb; lia.
  - exists r', m'. rewrite E. do 2 f_equal. lia.
Qed.

(** The facts users of [read_exact_volatile_from] need. *)
Lemma rev_unfold be r m a count :
  (be = GetSlices -> count <> 0) ->
  read_exact_volatile_from be r m a count =
  match read_loop be (S (length (rd_data r) + length (regions m))) r m a count 0 with
  | (r', m', Ok n) => (r', m', if n =? count then Ok tt else Err tt)
  | (r', m', Err e) => (r', m', Err e)
  | (r', m', Panic p) => (r', m', Panic p)
  end.
Proof.
  intros H. unfold read_exact_volatile_from. destruct be; [reflexivity|].
  destruct count; [exfalso; now apply H|reflexivity].
Qed.

Lemma read_measure_fuel be r m a :
  (read_measure be r m a < S (length (rd_data r) + length (regions m)))%nat.
Proof.
  destruct be; cbn [read_measure].
  - unfold rd_len, lenN. lia.
  - pose proof (regions_after_le (regions m) a). lia.
Qed.

Lemma rev_frame be r m a count r' m' o :
  wf_mem m = true -> read_exact_volatile_from be r m a count = (r', m', o) ->
  same_outside m m' (in_range a count) /\ rd_same_env r r' /\ (o = Ok tt \/ o = Err tt).
Proof.
  intros Hw H.
  destruct (N.eq_dec count 0) as [->|Hc].
  - destruct be.
    + rewrite rev_unfold in H by discriminate.
      destruct (read_loop _ _ _ _ _ _ _) as [[r1 m1] o1] eqn:E.
      apply read_loop_frame in E as (H1 & H2 & H3); [|exact Hw|apply read_measure_fuel].
      destruct H3 as [->|[n ->]]; injection H as <- <- <-; repeat (split; [assumption|]); auto.
      destruct (n =? 0); auto.
    + cbn in H. injection H as <- <- <-. split; [apply same_outside_refl|].
      split; [apply rd_same_env_refl|auto].
  - rewrite rev_unfold in H by auto.
    destruct (read_loop _ _ _ _ _ _ _) as [[r1 m1] o1] eqn:E.
    apply read_loop_frame in E as (H1 & H2 & H3); [|exact Hw|apply read_measure_fuel].
    destruct H3 as [->|[n ->]]; injection H as <- <- <-; repeat (split; [assumption|]); auto.
    destruct (n =? count); auto.
Qed.

Lemma rev_ok be r m a count r' m' :
  wf_mem m = true -> read_exact_volatile_from be r m a count = (r', m', Ok tt) ->
  (forall x, gm_byte m' x = put (gm_byte m) a (slice (rd_data r) (rd_pos r) count) x) /\
  regions m' = regions m /\
  (0 < count -> rd_pos r + count <= rd_len r) /\ range_backed m a count /\
  rd_pos r' = rd_pos r + count.
Proof.
  intros Hw H.
  pose proof (rev_frame _ _ _ _ _ _ _ _ Hw H) as ([Hreg Hout] & _ & _).
  destruct (N.eq_dec count 0) as [->|Hc].
  - split; [|split; [exact Hreg|split; [lia|split; [intros x ? ?; lia|]]]].
    + intros x. rewrite slice_zero, put_nil. apply Hout. unfold in_range. lia.
    + destruct be; cbn in H.
      * destruct (find_region m a); [|discriminate].
        rewrite N.min_0_r in H.
        destruct (read_volatile r 0) as [r1 [bs|]] eqn:E; [|discriminate].
        apply read_volatile_some in E as (Hk & _ & Hp & _).
        assert (lenN bs = 0) as E0 by lia. rewrite E0 in H. cbn in H. injection H as <- <-. lia.
      * injection H as <- <-. lia.
  - rewrite rev_unfold in H by auto.
    destruct (read_loop _ _ _ _ _ _ _) as [[r1 m1] o1] eqn:E.
    destruct o1 as [n| |]; [|discriminate|discriminate].
    destruct (N.eqb_spec n count) as [->|]; [|discriminate]. injection H as <- <-.
    apply read_loop_sound in E as (_ & E); [|exact Hw|apply read_measure_fuel|lia].
    destruct E as (E1 & E2 & E3 & E4); [lia|]. auto.
Qed.

Lemma rev_complete be r m a count :
  wf_mem m = true -> never_faults r -> reads_enough be r ->
  0 < count -> rd_pos r + count <= rd_len r -> range_backed m a count ->
  exists r' m', read_exact_volatile_from be r m a count = (r', m', Ok tt).
Proof.
  intros Hw Hnf Hfull Hc Hl Hb. rewrite rev_unfold by (intros _; lia).
  destruct (read_loop_complete be (S (length (rd_data r) + length (regions m))) r m a count 0)
    as (r' & m' & E); auto using read_measure_fuel.
  rewrite E. replace (0 + count =? count) with true by lia. eauto.
Qed.

Lemma rev_zero be r m a :
  never_faults r -> (be = GetSlices \/ backed m a) ->
  exists r' m', read_exact_volatile_from be r m a 0 = (r', m', Ok tt).
Proof.
  intros Hnf H. destruct be; cbn; [|eauto].
  destruct H as [?|Hb]; [discriminate|].
  apply find_region_backed in Hb as [rg ->]. rewrite N.min_0_r.
  destruct (read_volatile r 0) as [r1 [bs|]] eqn:E.
  - apply read_volatile_some in E as (Hk & _). assert (lenN bs = 0) as E0 by lia. rewrite E0. change (0 =? 0) with true. cbn [negb]. change (0 =? 0) with true. eauto.
  - unfold read_volatile in E. rewrite Hnf in E. discriminate.
Qed.

Lemma rev_zero_err be r m a r' m' o :
  read_exact_volatile_from be r m a 0 = (r', m', o) -> o = Ok tt -> be = GetSlices \/ backed m a.
Proof.
  intros H ->. destruct be; [|auto]. cbn in H. destruct (find_region m a) eqn:Ef; [|discriminate].
  right. apply find_region_backed. eauto.
Qed.
