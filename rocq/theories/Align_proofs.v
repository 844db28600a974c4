(** * Align_proofs: the rounding function of the ELF loader. *)
From Verif Require Import Base Base_proofs Io Mem Layout Loader Elf SpecFile SpecMem SpecElf.

Lemma pow2_pos k : 0 < 2 ^ k.
Proof. apply N.neq_0_lt_0, N.pow_nonzero. lia. Qed.

Lemma ones_eq k : 2 ^ k - 1 = N.ones k.
Proof. rewrite N.ones_equiv. lia. Qed.

Lemma is_power_of_two_spec n : is_power_of_two n = true <-> exists k, n = 2 ^ k.
Proof.
  unfold is_power_of_two. rewrite andb_true_iff, negb_true_iff, N.eqb_neq, N.eqb_eq. split.
  - intros [Hn H]. exists (N.log2 n). assert (0 < n) as Hp by lia.
    destruct (N.log2_spec n Hp) as [Hl Hu].
    destruct (N.eq_dec n (2 ^ N.log2 n)) as [E|E]; [exact E|exfalso].
    assert (N.log2 (n - 1) = N.log2 n) as El.
    { apply N.log2_unique; [lia|split; [lia|]]. lia. }
    assert (n - 1 <> 0) as Hm.
    { intros Z. pose proof (pow2_pos (N.log2 n)). lia. }
    assert (N.testbit (N.land n (n - 1)) (N.log2 n) = true) as Hb.
    { rewrite N.land_spec, N.bit_log2 by assumption. rewrite <- El at 1. rewrite N.bit_log2 by assumption. reflexivity. }
    rewrite H, N.bits_0 in Hb. discriminate.
  - intros [k ->]. pose proof (pow2_pos k). split; [lia|]. rewrite ones_eq, N.land_ones. apply N.mod_same. lia.
Qed.

Lemma lor_ones a k : N.lor a (2 ^ k - 1) + 1 = (a / 2 ^ k + 1) * 2 ^ k.
Proof.
  rewrite ones_eq. pose proof (pow2_pos k).
  assert (N.lor a (N.ones k) = N.lor (N.ldiff a (N.ones k)) (N.ones k)) as ->.
  { apply N.bits_inj. intros i. rewrite !N.lor_spec, N.ldiff_spec. destruct (N.testbit a i), (N.testbit (N.ones k) i); reflexivity. }
  assert (N.land (N.ldiff a (N.ones k)) (N.ones k) = 0) as H0.
  { apply N.bits_inj. intros i. rewrite N.land_spec, N.ldiff_spec, N.bits_0. destruct (N.testbit a i), (N.testbit (N.ones k) i); reflexivity. }
  rewrite <- N.lxor_lor, <- N.add_nocarry_lxor by exact H0.
  rewrite N.ldiff_ones_r, N.shiftl_mul_pow2, N.shiftr_div_pow2, N.ones_equiv.
  rewrite N.mul_add_distr_r. lia.
Qed.

Lemma align_up_pow bld a k :
  align_up bld a (2 ^ k) =
  if a mod 2 ^ k =? 0 then Ok a
  else let u := (a / 2 ^ k + 1) * 2 ^ k in
       if u <? two64 then Ok u else if bld then Panic ArithOverflow else Ok (u mod two64).
Proof.
  unfold align_up. rewrite (proj2 (is_power_of_two_spec _)) by eauto. cbn [negb].
  pose proof (pow2_pos k). unfold usub. rewrite (proj2 (N.leb_le 1 (2 ^ k))) by lia. cbn [obind].
  rewrite ones_eq at 1. rewrite N.land_ones. destruct (a mod 2 ^ k =? 0); [reflexivity|].
  unfold uadd. rewrite lor_ones. reflexivity.
Qed.

Lemma align_up_bad bld a n : (forall k, n <> 2 ^ k) -> align_up bld a n = Err (LElf Align).
Proof.
  intros H. unfold align_up. destruct (is_power_of_two n) eqn:E; [|reflexivity].
  apply is_power_of_two_spec in E. destruct E as [k E]. now apply H in E.
Qed.

Lemma align_up4 bld n : n < 2 ^ 32 -> align_up bld n 4 = Ok (pad4 n).
Proof.
  intros Hn. change 4 with (2 ^ 2). rewrite align_up_pow. unfold pad4. cbv zeta. change (2 ^ 2) with 4. change (2 ^ 32) with 4294967296 in Hn.
  pose proof (N.div_mod n 4 ltac:(lia)). pose proof (N.mod_lt n 4 ltac:(lia)).
  destruct (N.eqb_spec (n mod 4) 0) as [E|E].
  - f_equal. symmetry. replace (n + 3) with (3 + (n / 4) * 4) by lia. rewrite N.div_add by lia. change (3 / 4) with 0. lia.
  - unfold two64. rewrite (proj2 (N.ltb_lt _ _)) by lia. f_equal. f_equal.
    replace (n + 3) with (n mod 4 - 1 + (n / 4 + 1) * 4) by lia. rewrite N.div_add by lia.
    rewrite (N.div_small (n mod 4 - 1)) by lia. lia.
Qed.

Lemma pad4_spec n : n <= pad4 n /\ pad4 n < n + 4 /\ pad4 n mod 4 = 0.
Proof.
  unfold pad4. pose proof (N.div_mod (n + 3) 4 ltac:(lia)). pose proof (N.mod_lt (n + 3) 4 ltac:(lia)).
  split; [lia|]. split; [lia|]. apply N.mod_mul. lia.
Qed.
