(** * Props_ElfHelpers: C66, the ELF info words.

    The ELF specification defines st_info = (bind << 4) + type, Elf32 r_info = (sym << 8) + type,
    Elf64 r_info = (sym << 32) + type. *)
From Verif Require Import Base ElfHelpers.

Lemma low_bits n k : N.land n (2 ^ k - 1) = n mod 2 ^ k.
Proof. rewrite <- N.land_ones. f_equal. unfold N.ones. rewrite N.shiftl_1_l. lia. Qed.

Lemma split_word hi lo k : lo < 2 ^ k ->
  N.shiftr (hi * 2 ^ k + lo) k = hi /\ (hi * 2 ^ k + lo) mod 2 ^ k = lo.
Proof.
  intros H. assert (P : 2 ^ k <> 0) by (apply N.pow_nonzero; lia). split.
  - rewrite N.shiftr_div_pow2, N.div_add_l, N.div_small by assumption. lia.
  - rewrite N.add_comm, N.mod_add, N.mod_small by assumption. reflexivity.
Qed.

Lemma rejoin_word n k : n = N.shiftr n k * 2 ^ k + n mod 2 ^ k.
Proof.
  rewrite N.shiftr_div_pow2, N.mul_comm. apply N.div_mod. apply N.pow_nonzero. lia.
Qed.

(** Packing then taking apart gives the parts, for all values the word has room for. *)
Theorem C66_unpack :
  (forall bind type, bind < 2 ^ 4 -> type < 2 ^ 4 ->
     let info := bind * 2 ^ 4 + type in
     ELF32_ST_BIND info = bind /\ ELF32_ST_TYPE info = type /\
     ELF64_ST_BIND info = bind /\ ELF64_ST_TYPE info = type) /\
  (forall sym type, sym < 2 ^ 24 -> type < 2 ^ 8 ->
     let info := sym * 2 ^ 8 + type in ELF32_R_SYM info = sym /\ ELF32_R_TYPE info = type) /\
  (forall sym type, sym < 2 ^ 32 -> type < 2 ^ 32 ->
     let info := sym * 2 ^ 32 + type in ELF64_R_SYM info = sym /\ ELF64_R_TYPE info = type).
Proof.
  split; [|split].
  - intros b t Hb Ht info. subst info.
    unfold ELF32_ST_BIND, ELF32_ST_TYPE, ELF64_ST_BIND, ELF64_ST_TYPE, ELF_ST_BIND, ELF_ST_TYPE.
    change 15 with (2 ^ 4 - 1). rewrite low_bits. destruct (split_word b t 4 Ht) as [A B].
    rewrite A, B. auto.
  - intros s t Hs Ht info. subst info. unfold ELF32_R_SYM, ELF32_R_TYPE.
    change 255 with (2 ^ 8 - 1). rewrite low_bits. destruct (split_word s t 8 Ht) as [A B].
    rewrite A, B. split; [reflexivity|]. apply N.mod_small. exact Ht.
  - intros s t Hs Ht info. subst info. unfold ELF64_R_SYM, ELF64_R_TYPE.
    change 4294967295 with (2 ^ 32 - 1). rewrite low_bits. destruct (split_word s t 32 Ht) as [A B].
    rewrite A, B. split; apply N.mod_small; assumption.
Qed.

(** The parts determine the word (nothing is dropped by the narrowing conversions), and have the
    result type's range. *)
Theorem C66_repack :
  (forall info, info < 2 ^ 8 ->
     info = ELF64_ST_BIND info * 2 ^ 4 + ELF64_ST_TYPE info /\
     ELF64_ST_BIND info < 2 ^ 4 /\ ELF64_ST_TYPE info < 2 ^ 4 /\
     ELF32_ST_BIND info = ELF64_ST_BIND info /\ ELF32_ST_TYPE info = ELF64_ST_TYPE info) /\
  (forall info, info < 2 ^ 32 ->
     info = ELF32_R_SYM info * 2 ^ 8 + ELF32_R_TYPE info /\
     ELF32_R_SYM info < 2 ^ 24 /\ ELF32_R_TYPE info < 2 ^ 8) /\
  (forall info, info < 2 ^ 64 ->
     info = ELF64_R_SYM info * 2 ^ 32 + ELF64_R_TYPE info /\
     ELF64_R_SYM info < 2 ^ 32 /\ ELF64_R_TYPE info < 2 ^ 32).
Proof.
  assert (D : forall n a b, n < 2 ^ (a + b) -> N.shiftr n b < 2 ^ a).
  { intros n a b H. rewrite N.shiftr_div_pow2. apply N.div_lt_upper_bound.
    - apply N.pow_nonzero. lia.
    - rewrite <- N.pow_add_r, N.add_comm. exact H. }
  assert (M : forall n k, n mod 2 ^ k < 2 ^ k).
  { intros n k. apply N.mod_lt. apply N.pow_nonzero. lia. }
  split; [|split]; intros n H.
  - unfold ELF32_ST_BIND, ELF32_ST_TYPE, ELF64_ST_BIND, ELF64_ST_TYPE, ELF_ST_BIND, ELF_ST_TYPE.
    change 15 with (2 ^ 4 - 1). rewrite low_bits.
    repeat split; [apply rejoin_word|apply (D n 4 4 H)|apply M].
  - unfold ELF32_R_SYM, ELF32_R_TYPE. change 255 with (2 ^ 8 - 1). rewrite low_bits, N.mod_mod by discriminate.
    repeat split; [apply rejoin_word|apply (D n 24 8 H)|apply M].
  - unfold ELF64_R_SYM, ELF64_R_TYPE. change 4294967295 with (2 ^ 32 - 1).
    rewrite low_bits, N.mod_mod by discriminate.
    rewrite (N.mod_small (N.shiftr n 32)) by apply (D n 32 32 H).
    repeat split; [apply rejoin_word|apply (D n 32 32 H)|apply M].
Qed.
(** R_X86_64_RELATIVE (8) against symbol 5; a global function symbol. *)
Example C66_applies : ELF64_R_SYM 21474836488 = 5 /\ ELF64_R_TYPE 21474836488 = 8 /\
  ELF32_R_SYM 1288 = 5 /\ ELF32_R_TYPE 1288 = 8 /\ ELF64_ST_BIND 18 = 1 /\ ELF64_ST_TYPE 18 = 2.
Proof. vm_compute. auto 10. Qed.
