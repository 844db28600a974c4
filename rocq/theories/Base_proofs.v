(** Lemmas about bytes, slices and little-endian codecs. *)
From Verif Require Export Base.
Ltac Zify.zify_post_hook ::= Z.div_mod_to_equations.

Lemma n8_lt b : n8 b < 256.
Proof. unfold n8. pose proof (Strings.Byte.to_N_bounded b). lia. Qed.

Lemma of_N_some n : n < 256 -> exists b, Strings.Byte.of_N n = Some b.
Proof.
  intros H. destruct (Strings.Byte.of_N n) eqn:E; [eauto|].
  apply Strings.Byte.of_N_None_iff in E. lia.
Qed.

Lemma n8_b8 n : n8 (b8 n) = n mod 256.
Proof.
  unfold b8. destruct (of_N_some (n mod 256)) as [b Hb].
  { apply N.mod_lt. discriminate. }
  rewrite Hb. unfold n8. apply Strings.Byte.to_of_N. exact Hb.
Qed.

Lemma n8_b8_small n : n < 256 -> n8 (b8 n) = n.
Proof. intros. rewrite n8_b8. apply N.mod_small. assumption. Qed.

Lemma n8_inj a b : n8 a = n8 b -> a = b.
Proof.
  unfold n8. intros H.
  assert (Some a = Some b) as E.
  { rewrite <- (Strings.Byte.of_to_N a), <- (Strings.Byte.of_to_N b). now rewrite H. }
  congruence.
Qed.

Lemma b8_n8 b : b8 (n8 b) = b.
Proof. apply n8_inj. rewrite n8_b8. apply N.mod_small, n8_lt. Qed.

Lemma b8_mod n : b8 (n mod 256) = b8 n.
Proof. apply n8_inj. rewrite !n8_b8. apply N.mod_mod. discriminate. Qed.

(** *** lengths *)
Lemma lenN_nil {A} : lenN (@nil A) = 0.
Proof. reflexivity. Qed.
Lemma lenN_cons {A} (x : A) l : lenN (x :: l) = 1 + lenN l.
Proof. unfold lenN. cbn [length]. lia. Qed.
Lemma lenN_app {A} (l1 l2 : list A) : lenN (l1 ++ l2) = lenN l1 + lenN l2.
Proof. unfold lenN. rewrite app_length. lia. Qed.
Lemma lenN_zero {A} (l : list A) : lenN l = 0 -> l = [].
Proof. destruct l; [reflexivity|]. rewrite lenN_cons. lia. Qed.
Lemma lenN_zeros n : lenN (zeros n) = n.
Proof. unfold lenN, zeros. rewrite repeat_length. lia. Qed.
Lemma lenN_firstn {A} (l : list A) k : lenN (firstn (N.to_nat k) l) = N.min k (lenN l).
Proof. unfold lenN. rewrite firstn_length. lia. Qed.
Lemma lenN_skipn {A} (l : list A) k : lenN (skipn (N.to_nat k) l) = lenN l - k.
Proof. unfold lenN. rewrite skipn_length. lia. Qed.
Lemma lenN_map {A B} (f : A -> B) l : lenN (map f l) = lenN l.
Proof. unfold lenN. now rewrite map_length. Qed.

(** *** slices *)
Lemma slice_eq {A} (l : list A) off n :
  off <= lenN l -> slice l off n = firstn (N.to_nat n) (skipn (N.to_nat off) l).
Proof.
  intros H. unfold slice. rewrite (N.min_l off) by lia.
  destruct (N.leb_spec n (lenN l)).
  - now rewrite N.min_l by lia.
  - rewrite !firstn_all2; [reflexivity| |];
      rewrite skipn_length; unfold lenN in *; lia.
Qed.

Lemma slice_past {A} (l : list A) off n : lenN l <= off -> slice l off n = [].
Proof.
  intros H. unfold slice. rewrite (N.min_r off) by lia.
  rewrite skipn_all2 by (unfold lenN; lia). apply firstn_nil.
Qed.

Lemma lenN_slice {A} (l : list A) off n : lenN (slice l off n) = N.min n (lenN l - off).
Proof.
  unfold slice. rewrite lenN_firstn, lenN_skipn. lia.
Qed.

Lemma slice_zero {A} (l : list A) off : slice l off 0 = [].
Proof. unfold slice. replace (N.min 0 (lenN l)) with 0 by lia. reflexivity. Qed.

Lemma nth_error_skipn_N {A} (l : list A) k i :
  nth_error (skipn k l) i = nth_error l (k + i)%nat.
Proof.
  revert l; induction k as [|k IH]; intros [|x l]; cbn; try reflexivity.
  - destruct i; reflexivity.
  - apply IH.
Qed.

Lemma nth_error_firstn_N {A} (l : list A) k i :
  (i < k)%nat -> nth_error (firstn k l) i = nth_error l i.
Proof.
  revert l i; induction k as [|k IH]; intros l i Hi; [lia|].
  destruct l as [|x l]; [reflexivity|]. destruct i as [|i]; [reflexivity|].
  cbn. apply IH. lia.
Qed.

Lemma nth_error_slice {A} (l : list A) off n i :
  i < n -> nth_error (slice l off n) (N.to_nat i) = nth_error l (N.to_nat (off + i)).
Proof.
  intros Hi. destruct (N.leb_spec off (lenN l)) as [H|H].
  - rewrite slice_eq by assumption.
    rewrite nth_error_firstn_N by lia. rewrite nth_error_skipn_N. f_equal. lia.
  - rewrite slice_past by lia. rewrite (proj2 (nth_error_None l _)).
    + destruct (N.to_nat i); reflexivity.
    + unfold lenN in H. lia.
Qed.

Lemma list_ext {A} (l1 l2 : list A) :
  (forall i, nth_error l1 i = nth_error l2 i) -> l1 = l2.
Proof.
  revert l2; induction l1 as [|x l1 IH]; intros [|y l2] H; try reflexivity.
  - specialize (H O); discriminate.
  - specialize (H O); discriminate.
  - pose proof (H O) as H0; cbn in H0; injection H0 as ->. f_equal.
    apply IH. intros i. exact (H (S i)).
Qed.

Lemma skipn_skipn_N {A} (l : list A) a b : skipn a (skipn b l) = skipn (b + a) l.
Proof.
  revert l; induction b as [|b IH]; intros l; [reflexivity|].
  destruct l as [|x l]; cbn; [apply skipn_nil|]. apply IH.
Qed.

Lemma slice_split {A} (l : list A) off n k :
  off + n <= lenN l -> k <= n ->
  slice l off n = slice l off k ++ slice l (off + k) (n - k).
Proof.
  intros Hn Hk. rewrite !slice_eq by lia.
  rewrite <- (firstn_skipn (N.to_nat k) (firstn (N.to_nat n) _)) at 1.
  rewrite firstn_firstn, skipn_firstn_comm, skipn_skipn_N.
  f_equal; [|f_equal; [lia|]]; f_equal; lia.
Qed.

Lemma slice_app_l {A} (l1 l2 : list A) off n :
  off + n <= lenN l1 -> slice (l1 ++ l2) off n = slice l1 off n.
Proof.
  intros H. rewrite !slice_eq by (rewrite ?lenN_app; lia).
  unfold lenN in H.
  rewrite skipn_app, firstn_app.
  rewrite skipn_length.
  replace (N.to_nat n - (length l1 - N.to_nat off))%nat with O by lia.
  cbn [firstn]. apply app_nil_r.
Qed.

Lemma slice_app_r {A} (l1 l2 : list A) off n :
  lenN l1 <= off -> slice (l1 ++ l2) off n = slice l2 (off - lenN l1) n.
Proof.
  intros H. destruct (N.leb_spec off (lenN (l1 ++ l2))) as [H1|H1].
  - rewrite lenN_app in H1. rewrite !slice_eq by (rewrite ?lenN_app; lia).
    rewrite skipn_app, (skipn_all2 l1) by (unfold lenN in *; lia). cbn [app].
    do 2 f_equal. unfold lenN in *. lia.
  - rewrite lenN_app in H1.
    rewrite (slice_past (l1 ++ l2)) by (rewrite lenN_app; lia).
    now rewrite slice_past by lia.
Qed.

Lemma slice_full {A} (l : list A) : slice l 0 (lenN l) = l.
Proof.
  rewrite slice_eq by lia. change (N.to_nat 0) with O. cbn [skipn]. rewrite firstn_all2; [reflexivity|unfold lenN; lia].
Qed.

Lemma slice_app_mid {A} (l1 l2 l3 : list A) :
  slice (l1 ++ l2 ++ l3) (lenN l1) (lenN l2) = l2.
Proof.
  rewrite slice_app_r by lia. rewrite N.sub_diag.
  rewrite slice_app_l by lia. apply slice_full.
Qed.

Lemma slice_slice {A} (l : list A) o1 n1 o2 n2 :
  o2 + n2 <= n1 -> o1 + n1 <= lenN l ->
  slice (slice l o1 n1) o2 n2 = slice l (o1 + o2) n2.
Proof.
  intros H1 H2. apply list_ext. intros i.
  replace i with (N.to_nat (N.of_nat i)) by lia.
  destruct (N.ltb_spec (N.of_nat i) n2).
  - rewrite !nth_error_slice by lia. f_equal. lia.
  - rewrite (proj2 (nth_error_None _ _)), (proj2 (nth_error_None _ _)); [reflexivity| |].
    + pose proof (lenN_slice l (o1 + o2) n2). unfold lenN in *. lia.
    + pose proof (lenN_slice (slice l o1 n1) o2 n2). unfold lenN in *. lia.
Qed.

(** *** little endian *)
Lemma lenN_le_enc k n : lenN (le_enc k n) = N.of_nat k.
Proof.
  revert n; induction k as [|k IH]; intros n; [reflexivity|].
  cbn [le_enc]. rewrite lenN_cons, IH. lia.
Qed.

Lemma length_le_enc k n : length (le_enc k n) = k.
Proof. pose proof (lenN_le_enc k n). unfold lenN in *. lia. Qed.

Lemma le_dec_enc k n : le_dec (le_enc k n) = n mod (256 ^ N.of_nat k).
Proof.
  revert n; induction k as [|k IH]; intros n.
  - cbn. change (256 ^ 0) with 1. now rewrite N.mod_1_r.
  - cbn [le_enc le_dec]. rewrite IH, n8_b8.
    rewrite Nat2N.inj_succ, N.pow_succ_r by lia.
    rewrite N.mod_mul_r by (try discriminate; apply N.pow_nonzero; discriminate).
    reflexivity.
Qed.

Lemma le_dec_enc_small k n : n < 256 ^ N.of_nat k -> le_dec (le_enc k n) = n.
Proof. intros. rewrite le_dec_enc. apply N.mod_small. assumption. Qed.

Lemma le_enc_dec l : le_enc (length l) (le_dec l) = l.
Proof.
  induction l as [|b l IH]; [reflexivity|].
  cbn [length le_enc le_dec].
  pose proof (n8_lt b).
  assert ((n8 b + 256 * le_dec l) / 256 = le_dec l) as -> by lia.
  rewrite IH. f_equal. apply n8_inj. rewrite n8_b8. lia.
Qed.

Lemma le_dec_bound l : le_dec l < 256 ^ lenN l.
Proof.
  induction l as [|b l IH]; [reflexivity|].
  cbn [le_dec]. rewrite lenN_cons. replace (1 + lenN l) with (N.succ (lenN l)) by lia.
  rewrite N.pow_succ_r by lia. pose proof (n8_lt b). lia.
Qed.

Lemma le_dec_app l1 l2 : le_dec (l1 ++ l2) = le_dec l1 + 256 ^ lenN l1 * le_dec l2.
Proof.
  induction l1 as [|b l1 IH].
  - cbn [app le_dec]. change (256 ^ lenN (@nil byte)) with 1. lia.
  - cbn [app le_dec]. rewrite IH, lenN_cons.
    replace (1 + lenN l1) with (N.succ (lenN l1)) by lia.
    rewrite N.pow_succ_r by lia. nia.
Qed.

(** *** arithmetic *)
Lemma checked_add_some a b c : checked_add a b = Some c <-> c = a + b /\ a + b < two64.
Proof.
  unfold checked_add. destruct (N.ltb_spec (a + b) two64); split; intros H0.
  - injection H0 as <-. auto.
  - destruct H0 as [-> _]. reflexivity.
  - discriminate.
  - lia.
Qed.
Lemma checked_add_none a b : checked_add a b = None <-> two64 <= a + b.
Proof.
  unfold checked_add. destruct (N.ltb_spec (a + b) two64); split; intros; (lia || discriminate || reflexivity).
Qed.
Lemma uadd_ok {E} bld a b : a + b < two64 -> @uadd E bld a b = Ok (a + b).
Proof. intros H. unfold uadd. destruct (N.ltb_spec (a + b) two64); [reflexivity|lia]. Qed.
Lemma checked_add_lt a b : a + b < two64 -> checked_add a b = Some (a + b).
Proof. intros H. now apply checked_add_some. Qed.
