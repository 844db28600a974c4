(** * Dtb_proofs: the kernel's reader of device trees takes the tree out of every flattened form of it. *)
From Verif Require Import Base Base_proofs Mem SpecMem Text SpecGuest SpecDtb.
Local Open Scope list_scope.

(** ** Numbers *)
Lemma be_num_snoc l b : be_num (l ++ [b]) = be_num l * 256 + n8 b.
Proof.
  induction l as [|x l IH]; cbn [app be_num length]; [change (256 ^ N.of_nat 0) with 1; lia|].
  rewrite IH, app_length. cbn [length]. rewrite Nat.add_1_r, Nat2N.inj_succ, N.pow_succ_r'. lia.
Qed.
Lemma be_num_rev l : be_num (rev l) = le_dec l.
Proof. induction l as [|b l IH]; cbn [rev le_dec]; [reflexivity|]. rewrite be_num_snoc, IH. lia. Qed.
Lemma be32_num v : v < 2 ^ 32 -> be_num (be32 v) = v.
Proof. intros H. unfold be32. rewrite be_num_rev. apply le_dec_enc_small. exact H. Qed.
Lemma be64_num v : v < 2 ^ 64 -> be_num (be64 v) = v.
Proof. intros H. unfold be64. rewrite be_num_rev. apply le_dec_enc_small. exact H. Qed.
Lemma length_be32 v : length (be32 v) = 4%nat.
Proof. unfold be32. rewrite rev_length. apply length_le_enc. Qed.
Lemma length_be64 v : length (be64 v) = 8%nat.
Proof. unfold be64. rewrite rev_length. apply length_le_enc. Qed.

Lemma skipn_past {A} (a b : list A) n : n = length a -> skipn n (a ++ b) = b.
Proof. intros ->. rewrite skipn_app, skipn_all, Nat.sub_diag. reflexivity. Qed.
Lemma skipn_more {A} (a b : list A) n : skipn (length a + n) (a ++ b) = skipn n b.
Proof. rewrite skipn_app, skipn_all2 by lia. replace (length a + n - length a)%nat with n by lia. reflexivity. Qed.
Lemma firstn_past {A} (a b : list A) n : n = length a -> firstn n (a ++ b) = a.
Proof. intros ->. rewrite firstn_app, firstn_all, Nat.sub_diag. cbn. apply app_nil_r. Qed.

Lemma field_0 v l : v < 2 ^ 32 -> field (be32 v ++ l) 0 = v.
Proof. intros H. unfold field. change (N.to_nat 0) with 0%nat. cbn [skipn]. rewrite firstn_past by (symmetry; apply length_be32). now apply be32_num. Qed.
Lemma field_next a l o k : length a = N.to_nat o -> field (a ++ l) (o + k) = field l k.
Proof. intros H. unfold field. rewrite N2Nat.inj_add, <- H, skipn_more. reflexivity. Qed.

(** ** Names *)
Lemma until_nul_name name r : ~ In x00 name -> until_nul (name ++ [x00] ++ r) = name.
Proof.
  induction name as [|b n IH]; intros H; cbn.
  - reflexivity.
  - assert (Hb : n8 b =? 0 = false). { apply N.eqb_neq. intros E. apply H. left. apply n8_inj. rewrite E. reflexivity. }
    rewrite Hb. f_equal. apply IH. intros K. apply H. right. exact K.
Qed.
Lemma name_at_until strs o name r : name_at strs o name -> until_nul (skipn (N.to_nat o) (strs ++ r)) = name.
Proof.
  intros (Hn & before & after & -> & <-). rewrite <- !app_assoc. unfold lenN. rewrite Nat2N.id.
  rewrite skipn_past by reflexivity. now apply until_nul_name.
Qed.

(** ** The structure block *)
Lemma flat_long strs ps ts l : flat strs ps ts l -> (4 <= length l)%nat.
Proof. destruct 1; rewrite ?app_length, ?length_be32; lia. Qed.

Lemma contents_flat strs more ps ts l : flat strs ps ts l ->
  forall room rest, (length l <= room)%nat -> contents (strs ++ more) room (l ++ rest) = Some (ps, ts, rest).
Proof.
  induction 1 as [|ps ts l H IH|name v o ps ts pad l Hn Ho Hv Hp H IH|name ps ts pad l ps' ts' l' Hn Hp H IH H' IH'];
    intros room rest Hr.
  - destruct room as [|room]; [rewrite length_be32 in Hr; lia|]. cbn [contents].
    rewrite field_0 by reflexivity. change (2 =? 1) with false. change (2 =? 2) with true. cbv iota.
    rewrite skipn_past by (symmetry; apply length_be32). reflexivity.
  - rewrite app_length, length_be32 in Hr. destruct room as [|room]; [lia|]. cbn [contents]. rewrite <- app_assoc.
    rewrite field_0 by reflexivity. change (4 =? 1) with false. change (4 =? 2) with false. change (4 =? 3) with false. change (4 =? 4) with true. cbv iota.
    rewrite skipn_past by (symmetry; apply length_be32). apply IH. lia.
  - rewrite !app_length, !length_be32 in Hr. destruct room as [|room]; [lia|]. cbn [contents]. rewrite <- !app_assoc.
    rewrite field_0 by reflexivity. change (3 =? 1) with false. change (3 =? 2) with false. change (3 =? 3) with true. cbv iota.
    assert (F4 : field (be32 3 ++ be32 (lenN v) ++ be32 o ++ v ++ pad ++ l ++ rest) 4 = lenN v).
    { change 4 with (4 + 0). rewrite field_next by apply length_be32. now apply field_0. }
    assert (F8 : field (be32 3 ++ be32 (lenN v) ++ be32 o ++ v ++ pad ++ l ++ rest) 8 = o).
    { change 8 with (4 + 4). rewrite field_next by apply length_be32. change 4 with (4 + 0). rewrite field_next by apply length_be32. now apply field_0. }
    rewrite F4, F8.
    assert (S12 : forall n, skipn (12 + n) (be32 3 ++ be32 (lenN v) ++ be32 o ++ v ++ pad ++ l ++ rest) = skipn n (v ++ pad ++ l ++ rest)).
    { intros n. replace (12 + n)%nat with (length (be32 3) + (length (be32 (lenN v)) + (length (be32 o) + n)))%nat by (rewrite !length_be32; lia).
      now rewrite !skipn_more. }
    replace (12 + N.to_nat (lenN v) + N.to_nat (fill (lenN v)))%nat with (12 + (N.to_nat (lenN v) + N.to_nat (fill (lenN v))))%nat by lia.
    rewrite S12. pose proof (S12 0%nat) as S0. cbn [skipn] in S0. change (12 + 0)%nat with 12%nat in S0. rewrite S0.
    rewrite <- Hp. unfold lenN at 1 2 3. rewrite !Nat2N.id. rewrite skipn_more, skipn_past by reflexivity.
    rewrite firstn_past by reflexivity. rewrite IH by lia. now rewrite (name_at_until _ _ _ _ Hn).
  - rewrite !app_length, !length_be32 in Hr. cbn [length] in Hr. destruct room as [|room]; [lia|]. cbn [contents]. rewrite <- !app_assoc.
    rewrite field_0 by reflexivity. change (1 =? 1) with true. cbv iota.
    assert (U : until_nul (skipn 4 (be32 1 ++ name ++ [x00] ++ pad ++ l ++ l' ++ rest)) = name).
    { rewrite skipn_past by (symmetry; apply length_be32). now apply until_nul_name. }
    rewrite U, <- Hp. unfold lenN at 1. rewrite Nat2N.id.
    replace (4 + length name + 1 + length pad)%nat with (length (be32 1) + (length name + (length [x00] + length pad)))%nat by (rewrite length_be32; cbn [length]; lia).
    rewrite !skipn_more, skipn_past by reflexivity.
    rewrite IH by lia. rewrite IH' by lia. reflexivity.
Qed.

(** ** Guest memory *)
Lemma guest_bytes_held m a f n : holds_at m a f -> n <= lenN f -> guest_bytes m a n = firstn (N.to_nat n) f.
Proof.
  intros H Hn. unfold guest_bytes. unfold lenN in Hn.
  assert (G : forall k o, (o + k <= length f)%nat -> map (fun i => gm_byte m (a + N.of_nat i)) (seq o k) = firstn k (skipn o f)).
  { induction k as [|k IH]; intros o Ho; [reflexivity|]. cbn [seq map]. rewrite IH by lia.
    destruct (nth_error f o) as [b|] eqn:Eb; [|apply nth_error_None in Eb; lia].
    rewrite (H (N.of_nat o) b) by (rewrite Nat2N.id; exact Eb).
    assert (Es : skipn o f = b :: skipn (S o) f).
    { clear -Eb. revert f Eb. induction o as [|o IHo]; intros [|x f] Eb; try discriminate; cbn in *; [congruence|]. apply IHo in Eb. exact Eb. }
    rewrite Es. reflexivity. }
  specialize (G (N.to_nat n) 0%nat ltac:(lia)). exact G.
Qed.
Lemma holds_at_later m a b f : holds_at m a (b ++ f) -> holds_at m (a + lenN b) f.
Proof.
  intros H i x Hx. rewrite <- N.add_assoc. apply H. rewrite N2Nat.inj_add. unfold lenN. rewrite Nat2N.id.
  rewrite nth_error_app2 by lia. now replace (length b + N.to_nat i - length b)%nat with (N.to_nat i) by lia.
Qed.
Lemma field_firstn f n o : o + 4 <= n -> field (firstn (N.to_nat n) f) o = field f o.
Proof.
  intros H. unfold field. f_equal. rewrite skipn_firstn_comm, firstn_firstn. f_equal. lia.
Qed.

(** Whatever blob for [t] is at [a], the kernel reads [t]. *)
Lemma tree_at_blob m a f t : holds_at m a f -> blob f t -> a mod 8 = 0 -> field f 4 <= 2 ^ 21 -> tree_at m a = Some t.
Proof.
  destruct t as [name ps ts]. intros H (-> & Hmag & Hsz & Hmin & strs & st & mid & Hfl & (rest & Ef) & Hmid & (before & rest' & Ef' & Hbef)) Ha Hmax.
  unfold tree_at.
  assert (G4 : be_num (guest_bytes m (a + 4) 4) = field f 4).
  { rewrite (guest_bytes_held m (a + 4) (skipn 4 f)).
    - reflexivity.
    - change (a + 4) with (a + N.of_nat 4). rewrite <- (firstn_skipn 4 f) in H.
      assert (L : lenN (firstn 4 f) = 4) by (change 4%nat with (N.to_nat 4); rewrite lenN_firstn; lia).
      apply holds_at_later in H. rewrite L in H. exact H.
    - change 4%nat with (N.to_nat 4). rewrite lenN_skipn. lia. }
  assert (G0 : be_num (guest_bytes m a 4) = field f 0).
  { rewrite (guest_bytes_held m a f) by (assumption || lia). reflexivity. }
  rewrite G4, G0, Ha, Hmag. change (0 =? 0) with true. change (3490578157 =? 3490578157) with true. cbn [negb orb].
  destruct (N.ltb_spec (2 ^ 21) (field f 4)) as [K|_]; [lia|].
  rewrite (guest_bytes_held m a f) by assumption.
  assert (F8 : field (firstn (N.to_nat (field f 4)) f) 8 = field f 8) by (apply field_firstn; lia).
  assert (F12 : field (firstn (N.to_nat (field f 4)) f) 12 = field f 12) by (apply field_firstn; lia).
  rewrite F8, F12, <- Hmid, <- Hbef.
  remember (firstn (N.to_nat (field f 4)) f) as g eqn:Eg.
  assert (S8 : skipn (N.to_nat (lenN mid)) g = be32 1 ++ zeros 4 ++ st ++ be32 9 ++ rest).
  { rewrite Ef. apply skipn_past. unfold lenN. now rewrite Nat2N.id. }
  assert (S12 : skipn (N.to_nat (lenN before)) g = strs ++ rest').
  { rewrite Ef'. apply skipn_past. unfold lenN. now rewrite Nat2N.id. }
  rewrite S8, S12. rewrite field_0 by reflexivity. change (1 =? 1) with true. cbn [negb].
  assert (S16 : skipn 8 (be32 1 ++ zeros 4 ++ st ++ be32 9 ++ rest) = st ++ be32 9 ++ rest).
  { rewrite app_assoc. apply skipn_past. rewrite app_length, length_be32. reflexivity. }
  rewrite S16. rewrite (contents_flat strs rest' ps ts st Hfl).
  - rewrite field_0 by reflexivity. reflexivity.
  - rewrite Ef, !app_length. lia.
Qed.
