(** * Boot_proofs: boot parameter lists. *)
From Verif Require Import Base Base_proofs Io Mem SpecMem Mem_proofs SpecBoot BootParams.

Lemma vec_grow v n : lenN v <= n -> n <= isize_max -> vec_resize v n = Ok (v ++ zeros (n - lenN v)).
Proof.
  intros H1 H2. unfold vec_resize. destruct (N.leb_spec n (lenN v)) as [H|H].
  - replace n with (lenN v) by lia. rewrite slice_full, N.sub_diag. change (zeros 0) with (@nil byte). now rewrite app_nil_r.
  - rewrite (proj2 (N.ltb_ge _ _)) by assumption. reflexivity.
Qed.

Lemma nth_error_zeros n i : i < n -> nth_error (zeros n) (N.to_nat i) = Some x00.
Proof. intros H. unfold zeros. apply nth_error_repeat. lia. Qed.

Lemma splice_placed v off e :
  off + lenN e <= isize_max -> exists v',
  vec_splice (v ++ zeros (N.max (off + lenN e) (lenN v) - lenN v)) off (off + lenN e) e = Ok v' /\ placed v off e v'.
Proof.
  intros Hm. set (w := v ++ zeros (N.max (off + lenN e) (lenN v) - lenN v)).
  assert (Hw : lenN w = N.max (lenN v) (off + lenN e)) by (unfold w; rewrite lenN_app, lenN_zeros; lia).
  assert (Hn : forall j, j < lenN w -> nth_error w (N.to_nat j) = if j <? lenN v then nth_error v (N.to_nat j) else Some x00).
  { intros j Hj. unfold w. destruct (N.ltb_spec j (lenN v)) as [H|H].
    - rewrite nth_error_app1; [reflexivity|]. unfold lenN in H. lia.
    - rewrite nth_error_app2 by (unfold lenN in H; lia). replace (N.to_nat j - length v)%nat with (N.to_nat (j - lenN v)) by (unfold lenN; lia).
      apply nth_error_zeros. lia. }
  unfold vec_splice. rewrite (proj2 (N.ltb_ge _ _)) by lia. rewrite (proj2 (N.ltb_ge _ _)) by lia. cbn [orb].
  eexists. split; [reflexivity|].
  assert (L1 : lenN (slice w 0 off) = off) by (rewrite lenN_slice; lia).
  assert (L3 : lenN (slice w (off + lenN e) (lenN w - (off + lenN e))) = lenN w - (off + lenN e)) by (rewrite lenN_slice; lia).
  split; [rewrite !lenN_app, L1, L3, Hw; lia|]. rewrite !lenN_app, L1, L3. intros j Hj.
  destruct (N.leb_spec off j) as [H1|H1]; cbn [andb].
  - rewrite nth_error_app2 by (unfold lenN in L1; lia).
    replace (N.to_nat j - length (slice w 0 off))%nat with (N.to_nat (j - off)) by (unfold lenN in L1; lia).
    destruct (N.ltb_spec j (off + lenN e)) as [H2|H2].
    + rewrite nth_error_app1 by (unfold lenN in H2; lia). reflexivity.
    + rewrite nth_error_app2 by (unfold lenN in H2; lia).
      replace (N.to_nat (j - off) - length e)%nat with (N.to_nat (j - (off + lenN e))) by (unfold lenN; lia).
      rewrite nth_error_slice by lia. replace (off + lenN e + (j - (off + lenN e))) with j by lia. apply Hn. lia.
  - rewrite nth_error_app1 by (unfold lenN in L1; lia). rewrite nth_error_slice by lia. rewrite N.add_0_l. apply Hn. lia.
Qed.

(** Everything that adding to a list can do. *)
Lemma add_cases bld e addr v st v' st' o :
  call_ok st addr v e -> add_to_list bld e addr v st = (v', st', o) ->
  st' = start_with st addr /\
  ((start_with st addr = None /\ o = Err MissingStartAddress /\ v' = v) \/
   exists s, start_with st addr = Some s /\
   (2 ^ 64 <= s + lenN v /\ o = Err BOverflow /\ v' = v \/
    s + lenN v < 2 ^ 64 /\ let a := match addr with Some a => a | None => s + lenN v end in
    (a < s /\ o = Err InvalidAddress /\ v' = v \/
     s <= a /\ (2 ^ 63 <= a - s + lenN e /\ (exists q, o = Panic q) \/
       a - s + lenN e < 2 ^ 63 /\ o = Ok a /\ placed v (a - s) e v')))).
Proof.
  intros (Hs & Ha & Hv & He) H. unfold add_to_list in H.
  assert (E64 : 2 ^ 64 = two64) by reflexivity. assert (E63 : 2 ^ 63 = 9223372036854775808) by reflexivity.
  rewrite E64 in *. rewrite E63 in *. clear E64 E63.
  change (match st with None => addr | Some _ => st end) with (match st with None => addr | Some x => st end) in H.
  replace (match st with None => addr | Some _ => st end) with (start_with st addr) in H by (destruct st; reflexivity).
  destruct (start_with st addr) as [s|] eqn:Es; [|inversion H; subst; auto].
  assert (Hsb : s < two64) by (unfold start_with in Es; destruct st; inversion Es; subst; auto).
  unfold checked_add in H. destruct (N.ltb_spec (s + lenN v) two64) as [H1|H1].
  2:{ inversion H; subst. split; [reflexivity|]. right. exists s. auto. }
  set (a := match addr with Some a => a | None => s + lenN v end) in *.
  assert (Hab : a < two64) by (unfold a; destruct addr; auto).
  unfold checked_sub in H. destruct (N.leb_spec s a) as [H2|H2].
  2:{ inversion H; subst. split; [reflexivity|]. right. exists s. split; [reflexivity|]. right. split; [exact H1|]. left. auto. }
  assert (Hfin : forall vv oo, (9223372036854775808 <= a - s + lenN e /\ (exists q, oo = Panic q) \/
       a - s + lenN e < 9223372036854775808 /\ oo = Ok a /\ placed v (a - s) e vv) -> (vv, Some s, oo) = (v', st', o) ->
    st' = Some s /\ ((Some s = None /\ o = Err MissingStartAddress /\ v' = v) \/ exists s0, Some s = Some s0 /\
      (two64 <= s0 + lenN v /\ o = Err BOverflow /\ v' = v \/
       s0 + lenN v < two64 /\ let a := match addr with Some a => a | None => s0 + lenN v end in
       (a < s0 /\ o = Err InvalidAddress /\ v' = v \/
        s0 <= a /\ (9223372036854775808 <= a - s0 + lenN e /\ (exists q, o = Panic q) \/
          a - s0 + lenN e < 9223372036854775808 /\ o = Ok a /\ placed v (a - s0) e v'))))).
  { intros vv oo Hc E. inversion E; subst vv st' oo. split; [reflexivity|]. right. exists s. split; [reflexivity|]. right. split; [exact H1|].
    cbv zeta. fold a. right. split; [exact H2|exact Hc]. }
  unfold uadd in H.
  destruct (N.ltb_spec (a - s + lenN e) two64) as [H3|H3].
  - destruct (N.le_gt_cases (a - s + lenN e) isize_max) as [H4|H4].
    + rewrite vec_grow in H by (unfold isize_max in *; (unfold two64 in *; lia)).
      destruct (splice_placed v (a - s) e H4) as (v1 & Ev & Hpl). rewrite Ev in H.
      eapply Hfin; [|exact H]. right. unfold isize_max in H4. split; [(unfold two64 in *; lia)|]. auto.
    + unfold vec_resize in H. rewrite (proj2 (N.leb_gt _ _)) in H by (unfold isize_max in *; (unfold two64 in *; lia)).
      rewrite (proj2 (N.ltb_lt _ _)) in H by (unfold isize_max in *; (unfold two64 in *; lia)).
      eapply Hfin; [|exact H]. left. unfold isize_max in H4. split; [(unfold two64 in *; lia)|eauto].
  - destruct bld.
    + eapply Hfin; [|exact H]. left. split; [(unfold two64 in *; lia)|eauto].
    + assert (Em : (a - s + lenN e) mod two64 = a - s + lenN e - two64).
      { symmetry. apply N.mod_unique with 1; (unfold two64 in *; lia). }
      rewrite Em in H. rewrite vec_grow in H by (unfold isize_max; (unfold two64 in *; lia)).
      unfold vec_splice in H. rewrite (proj2 (N.ltb_lt _ _)) in H by (unfold two64 in *; lia). cbn [orb] in H.
      eapply Hfin; [|exact H]. left. split; [(unfold two64 in *; lia)|eauto].
Qed.

(** Element [e] is in list [v], which starts at [s], at address [a]. *)
Definition has (s : N) (v : bytes) (a : N) (e : bytes) : Prop :=
  s <= a /\ forall i b, nth_error e (N.to_nat i) = Some b -> nth_error v (N.to_nat (a - s + i)) = Some b.

Lemma nth_error_lenN {A} (l : list A) i b : nth_error l (N.to_nat i) = Some b -> i < lenN l.
Proof. intros H. assert (N.to_nat i < length l)%nat by (apply nth_error_Some; congruence). unfold lenN. lia. Qed.

Lemma placed_has v off e v' s : placed v off e v' -> has s v' (s + off) e.
Proof.
  intros [Hl Hn]. split; [lia|]. intros i b Hb. pose proof (nth_error_lenN _ _ _ Hb). rewrite Hn by lia.
  rewrite (proj2 (N.leb_le _ _)) by lia. rewrite (proj2 (N.ltb_lt _ _)) by lia. cbn [andb].
  replace (s + off - s + i - off) with i by lia. exact Hb.
Qed.

Lemma placed_keeps v off e v' s a e1 :
  placed v off e v' -> has s v a e1 -> apart a (lenN e1) (s + off) (lenN e) -> has s v' a e1.
Proof.
  intros [Hl Hn] [Hs Hv] Hap. split; [exact Hs|]. intros i b Hb. pose proof (Hv _ _ Hb) as Hb'.
  pose proof (nth_error_lenN _ _ _ Hb). pose proof (nth_error_lenN _ _ _ Hb'). rewrite Hn by lia.
  rewrite (proj2 (N.ltb_lt (a - s + i) (lenN v))) by assumption. rewrite Hb'.
  destruct (N.leb_spec off (a - s + i)); [|reflexivity]. destruct (N.ltb_spec (a - s + i) (off + lenN e)); [|reflexivity].
  exfalso. unfold apart in Hap. lia.
Qed.

Lemma has_holds m s v a e : holds_at m s v -> has s v a e -> holds_at m a e.
Proof. intros Hm [Hs Hv] i b Hb. rewrite <- (Hm _ _ (Hv _ _ Hb)). f_equal. lia. Qed.
