(** * Utf8_proofs: the byte-level string functions against the character-level ones. *)
From Verif Require Import Base Base_proofs Text Cmdline SpecCmdline Text_proofs Cmdline_proofs Cmdline_proofs2 Cmdline_proofs3 SpecUtf8 Utf8.

Lemma scalar_lt c : scalar c -> c < 1114112.
Proof. unfold scalar. lia. Qed.

Lemma lor_shift a n b : b < 2 ^ n -> N.lor (N.shiftl a n) b = a * 2 ^ n + b.
Proof.
  intros H. rewrite <- N.shiftl_mul_pow2. symmetry.
  assert (D : N.land (N.shiftl a n) b = 0).
  { apply N.bits_inj. intros i. rewrite N.land_spec, N.bits_0.
    destruct (N.lt_ge_cases i n) as [L|L].
    - rewrite N.shiftl_spec_low by exact L. reflexivity.
    - replace (N.testbit b i) with false; [apply andb_false_r|].
      destruct (N.eq_dec b 0) as [->|NZ]; [symmetry; apply N.bits_0|].
      symmetry. apply N.bits_above_log2. apply N.lt_le_trans with n; [|exact L].
      apply N.log2_lt_pow2; lia. }
  rewrite <- N.lxor_lor by exact D. apply N.add_nocarry_lxor. exact D.
Qed.
Lemma land_mod a k : N.land a (2 ^ k - 1) = a mod 2 ^ k.
Proof. rewrite <- N.land_ones. f_equal. rewrite N.ones_equiv. lia. Qed.
Lemma first2 x : first_bits x 2 = n8 x mod 32.
Proof. unfold first_bits. change (N.shiftr 127 2) with (2 ^ 5 - 1). rewrite land_mod. reflexivity. Qed.
Lemma first3 x : first_bits x 3 = n8 x mod 16.
Proof. unfold first_bits. change (N.shiftr 127 3) with (2 ^ 4 - 1). rewrite land_mod. reflexivity. Qed.
Lemma first4 x : first_bits x 4 = n8 x mod 8.
Proof. unfold first_bits. change (N.shiftr 127 4) with (2 ^ 3 - 1). rewrite land_mod. reflexivity. Qed.
Lemma land63 a : N.land a 63 = a mod 64.
Proof. change 63 with (2 ^ 6 - 1). rewrite land_mod. reflexivity. Qed.
Lemma land7 a : N.land a 7 = a mod 8.
Proof. change 7 with (2 ^ 3 - 1). rewrite land_mod. reflexivity. Qed.
Lemma acc_eq ch b : acc_cont ch b = ch * 64 + n8 b mod 64.
Proof.
  unfold acc_cont. rewrite land63. rewrite lor_shift; [reflexivity|]. change (2 ^ 6) with 64. lia.
Qed.

(** A character's bytes, read forwards and backwards. *)
Ltac nb := rewrite ?n8_b8_small by lia.
Lemma next_char_utf8 c r : c < 1114112 -> next_char (utf8_char c ++ r) = Some (c, r).
Proof.
  intros H. unfold utf8_char.
  destruct (N.ltb_spec c 128).
  { cbn [app next_char]. nb. destruct (N.ltb_spec c 128); [reflexivity|lia]. }
  destruct (N.ltb_spec c 2048).
  { cbn [app next_char]. rewrite !acc_eq, first2. nb.
    destruct (N.ltb_spec (192 + c / 64) 128); [lia|]. destruct (N.ltb_spec (192 + c / 64) 224); [|lia].
    f_equal. f_equal. lia. }
  destruct (N.ltb_spec c 65536).
  { cbn [app next_char]. rewrite !acc_eq, first2, land63. nb.
    destruct (N.ltb_spec (224 + c / 4096) 128); [lia|]. destruct (N.ltb_spec (224 + c / 4096) 224); [lia|].
    destruct (N.ltb_spec (224 + c / 4096) 240); [|lia].
    rewrite lor_shift by (change (2 ^ 12) with 4096; lia). change (2 ^ 12) with 4096.
    f_equal. f_equal. lia. }
  cbn [app next_char]. rewrite !acc_eq, first2, land63, land7. nb.
  destruct (N.ltb_spec (240 + c / 262144 mod 8) 128); [lia|]. destruct (N.ltb_spec (240 + c / 262144 mod 8) 224); [lia|].
  destruct (N.ltb_spec (240 + c / 262144 mod 8) 240); [lia|].
  rewrite lor_shift by (change (2 ^ 18) with 262144; lia). change (2 ^ 18) with 262144.
  f_equal. f_equal. lia.
Qed.
Lemma is_cont_b8 n : n < 256 -> is_cont (b8 n) = (128 <=? n) && (n <? 192).
Proof. intros. unfold is_cont. now nb. Qed.
Lemma prev_char_utf8 c r : c < 1114112 -> prev_char (rev (utf8_char c) ++ r) = Some (c, r).
Proof.
  intros H. unfold utf8_char.
  destruct (N.ltb_spec c 128).
  { cbn [rev app prev_char]. nb. destruct (N.ltb_spec c 128); [reflexivity|lia]. }
  destruct (N.ltb_spec c 2048).
  { cbn [rev app prev_char]. rewrite !acc_eq, first2. nb. rewrite is_cont_b8 by lia.
    destruct (N.ltb_spec (128 + c mod 64) 128); [lia|].
    destruct (N.leb_spec 128 (192 + c / 64)); [|lia]. destruct (N.ltb_spec (192 + c / 64) 192); [lia|].
    cbn [andb]. f_equal. f_equal. lia. }
  destruct (N.ltb_spec c 65536).
  { cbn [rev app prev_char]. rewrite !acc_eq, first3. nb. rewrite !is_cont_b8 by lia.
    destruct (N.ltb_spec (128 + c mod 64) 128); [lia|].
    destruct (N.leb_spec 128 (128 + c / 64 mod 64)); [|lia]. destruct (N.ltb_spec (128 + c / 64 mod 64) 192); [|lia].
    cbn [andb].
    destruct (N.ltb_spec (224 + c / 4096) 192); [lia|]. rewrite andb_false_r.
    f_equal. f_equal. lia. }
  cbn [rev app prev_char]. rewrite !acc_eq, first4. nb. rewrite !is_cont_b8 by lia.
  destruct (N.ltb_spec (128 + c mod 64) 128); [lia|].
  destruct (N.leb_spec 128 (128 + c / 64 mod 64)); [|lia]. destruct (N.ltb_spec (128 + c / 64 mod 64) 192); [|lia].
  cbn [andb].
  destruct (N.leb_spec 128 (128 + c / 4096 mod 64)); [|lia]. destruct (N.ltb_spec (128 + c / 4096 mod 64) 192); [|lia].
  cbn [andb]. f_equal. f_equal. lia.
Qed.

(** Text that is made of Unicode scalar values. *)

Lemma utf8_char_len c : (1 <= List.length (utf8_char c))%nat.
Proof. unfold utf8_char. repeat destruct (_ <? _); cbn; lia. Qed.
Lemma utf8_cons c s : utf8 (c :: s) = utf8_char c ++ utf8 s.
Proof. reflexivity. Qed.
Lemma chars_utf8_from s : scalars s -> forall f, (List.length s <= f)%nat -> chars_from f (utf8 s) = s.
Proof.
  induction 1 as [|c s H _ IH]; intros f F.
  - destruct f; reflexivity.
  - destruct f as [|f]; [cbn in F; lia|]. cbn [chars_from]. rewrite utf8_cons, next_char_utf8 by (now apply scalar_lt).
    f_equal. apply IH. cbn in F. lia.
Qed.
Lemma utf8_len_ge s : (List.length s <= List.length (utf8 s))%nat.
Proof.
  induction s as [|c s IH]; [cbn; lia|]. rewrite utf8_cons, app_length. pose proof (utf8_char_len c). cbn [List.length]. lia.
Qed.
Lemma chars_utf8 s : scalars s -> chars (utf8 s) = s.
Proof. intros H. apply chars_utf8_from; [exact H|]. apply utf8_len_ge. Qed.

Lemma last_char_utf8 s c : scalars (s ++ [c]) -> last_char (utf8 (s ++ [c])) = Some c.
Proof.
  intros H. apply Forall_app in H as [_ H]. inversion H; subst.
  unfold last_char. rewrite utf8_app. cbn [utf8 flat_map]. rewrite app_nil_r, rev_app_distr.
  rewrite prev_char_utf8 by now apply scalar_lt. reflexivity.
Qed.

(** ASCII bytes only come from ASCII characters. *)
Lemma utf8_char_ascii c : c < 128 -> utf8_char c = [b8 c].
Proof. intros H. unfold utf8_char. destruct (N.ltb_spec c 128); [reflexivity|lia]. Qed.
Lemma utf8_char_high c : 128 <= c -> c < 1114112 -> Forall (fun b => 128 <= n8 b) (utf8_char c).
Proof.
  intros H1 H2. unfold utf8_char. destruct (N.ltb_spec c 128); [lia|].
  destruct (N.ltb_spec c 2048); [|destruct (N.ltb_spec c 65536)];
    repeat constructor; nb; lia.
Qed.
(** The first byte is not a continuation byte, the others are. *)
Lemma utf8_char_head c : c < 1114112 -> exists b r, utf8_char c = b :: r /\ is_cont b = false /\ Forall (fun x => is_cont x = true) r.
Proof.
  intros H. unfold utf8_char. destruct (N.ltb_spec c 128); [|destruct (N.ltb_spec c 2048); [|destruct (N.ltb_spec c 65536)]];
    eexists; eexists; (split; [reflexivity|]); rewrite ?is_cont_b8 by lia; (split; [lia|]); repeat constructor;
    rewrite is_cont_b8 by lia; lia.
Qed.

Lemma has_byte_utf8 s c : scalars s -> c < 128 -> has_byte (utf8 s) c = contains s c.
Proof.
  intros H Hc. unfold has_byte, contains. induction H as [|x s Hx _ IH]; [reflexivity|].
  rewrite utf8_cons, existsb_app, IH. cbn [existsb]. f_equal.
  destruct (N.lt_ge_cases x 128) as [L|L].
  - rewrite utf8_char_ascii by exact L. cbn [existsb]. nb. rewrite orb_false_r. apply N.eqb_sym.
  - replace (c =? x) with false by lia.
    pose proof (utf8_char_high x L (scalar_lt x Hx)) as F. clear - F Hc.
    induction F as [|b r B _ IH]; [reflexivity|]. cbn [existsb]. rewrite IH. lia.
Qed.
Lemma count_byte_utf8 s c : scalars s -> c < 128 -> count_byte (utf8 s) c = count s c.
Proof.
  intros H Hc. unfold count_byte, count. induction H as [|x s Hx _ IH]; [reflexivity|].
  rewrite utf8_cons, filter_app, lenN_app, IH. cbn [filter].
  destruct (N.lt_ge_cases x 128) as [L|L].
  - rewrite utf8_char_ascii by exact L. cbn [filter]. nb. rewrite (N.eqb_sym x c).
    destruct (c =? x); cbn; unfold lenN; cbn; lia.
  - replace (c =? x) with false by lia.
    assert (E : filter (fun b => n8 b =? c) (utf8_char x) = []).
    { pose proof (utf8_char_high x L (scalar_lt x Hx)) as F. clear - F Hc.
      induction F as [|b r B _ IH]; [reflexivity|]. cbn [filter]. rewrite IH.
      destruct (N.eqb_spec (n8 b) c); [lia|reflexivity]. }
    rewrite E. unfold lenN. cbn. lia.
Qed.

(** Character boundaries of a UTF-8 string are exactly the ends of its prefixes; slicing there
    gives the prefix and the rest. *)
Lemma boundary_at s t : scalars t -> is_char_boundary (utf8 (s ++ t)) (lenN (utf8 s)) = true.
Proof.
  intros H. unfold is_char_boundary. destruct (N.eqb_spec (lenN (utf8 s)) 0); [reflexivity|].
  rewrite utf8_app. unfold lenN at 1. rewrite Nat2N.id, nth_error_app2 by lia. rewrite Nat.sub_diag.
  destruct t as [|c t].
  - cbn [utf8 flat_map nth_error]. rewrite app_nil_r. apply N.eqb_refl.
  - rewrite utf8_cons. inversion H as [|? ? Hc _]; subst.
    destruct (utf8_char_head c (scalar_lt c Hc)) as (b & r & -> & B & _). cbn [app nth_error]. now rewrite B.
Qed.
Lemma str_to_utf8 {E} s t : scalars t -> str_to (E := E) (utf8 (s ++ t)) (lenN (utf8 s)) = Ok (utf8 s).
Proof.
  intros H. unfold str_to. rewrite boundary_at by exact H. rewrite utf8_app.
  unfold lenN. rewrite Nat2N.id, firstn_app, Nat.sub_diag, firstn_all. cbn [firstn]. now rewrite app_nil_r.
Qed.
Lemma str_from_utf8 {E} s t : scalars t -> str_from (E := E) (utf8 (s ++ t)) (lenN (utf8 s)) = Ok (utf8 t).
Proof.
  intros H. unfold str_from. rewrite boundary_at by exact H. rewrite utf8_app.
  unfold lenN. rewrite Nat2N.id, skipn_app, Nat.sub_diag, skipn_all. reflexivity.
Qed.

(** ** trim *)
Lemma next_reject_utf8 s : scalars s -> forall f i, (List.length s <= f)%nat ->
  match trim_start s with
  | [] => next_reject f i (utf8 s) = None
  | c :: r => exists l, s = l ++ c :: r /\
      next_reject f i (utf8 s) = Some (i + lenN (utf8 l), i + lenN (utf8 l) + lenN (utf8_char c), utf8 r)
  end.
Proof.
  induction 1 as [|c s Hc Hs IH]; intros f i F.
  - cbn. destruct f; reflexivity.
  - destruct f as [|f]; [cbn in F; lia|]. cbn [trim_start next_reject].
    rewrite utf8_cons, next_char_utf8 by now apply scalar_lt. rewrite lenN_app.
    replace (lenN (utf8_char c) + lenN (utf8 s) - lenN (utf8 s)) with (lenN (utf8_char c)) by lia.
    destruct (is_whitespace c).
    + specialize (IH f (i + lenN (utf8_char c)) ltac:(cbn in F; lia)). destruct (trim_start s) as [|d r]; [exact IH|].
      destruct IH as (l & -> & E). exists (c :: l). split; [reflexivity|]. rewrite E, utf8_cons, lenN_app.
      f_equal. f_equal. f_equal; lia.
    + exists []. split; [reflexivity|]. cbn [utf8 flat_map]. change (lenN (@nil byte)) with 0. f_equal. f_equal. f_equal; lia.
Qed.
(** [rs] is the reversed text still to be searched. *)
Lemma rev_utf8_cons c s : rev (utf8 (rev (c :: s))) = rev (utf8_char c) ++ rev (utf8 (rev s)).
Proof. cbn [rev]. rewrite utf8_app, rev_app_distr. cbn [utf8 flat_map]. now rewrite app_nil_r. Qed.
Lemma next_reject_back_utf8 rs : scalars rs -> forall f j, (List.length rs <= f)%nat -> lenN (utf8 (rev rs)) <= j ->
  match trim_start rs with
  | [] => next_reject_back f j (rev (utf8 (rev rs))) = None
  | c :: r => next_reject_back f j (rev (utf8 (rev rs))) = Some (j - lenN (utf8 (rev rs)) + lenN (utf8 (rev (c :: r))))
  end.
Proof.
  induction 1 as [|c s Hc Hs IH]; intros f j F J.
  - cbn. destruct f; reflexivity.
  - destruct f as [|f]; [cbn in F; lia|]. cbn [trim_start next_reject_back].
    rewrite rev_utf8_cons, prev_char_utf8 by now apply scalar_lt.
    assert (L : lenN (utf8 (rev (c :: s))) = lenN (utf8 (rev s)) + lenN (utf8_char c)).
    { cbn [rev]. rewrite utf8_app, lenN_app. cbn [utf8 flat_map]. now rewrite app_nil_r. }
    assert (L2 : lenN (rev (utf8_char c) ++ rev (utf8 (rev s))) - lenN (rev (utf8 (rev s))) = lenN (utf8_char c)).
    { rewrite lenN_app. unfold lenN. rewrite !rev_length. lia. }
    rewrite L2. destruct (is_whitespace c).
    + specialize (IH f (j - lenN (utf8_char c)) ltac:(cbn in F; lia) ltac:(lia)). destruct (trim_start s) as [|d r]; [exact IH|].
      rewrite IH, L. f_equal. lia.
    + f_equal. lia.
Qed.
Lemma trim_start_incl s c : In c (trim_start s) -> In c s.
Proof. induction s as [|x s IH]; cbn [trim_start]; [auto|]. destruct (is_whitespace x); [intros H; right; auto|auto]. Qed.
Lemma scalars_trim_start s : scalars s -> scalars (trim_start s).
Proof. unfold scalars. intros H. apply Forall_forall. intros c C. rewrite Forall_forall in H. apply H, trim_start_incl, C. Qed.
Lemma scalars_trim s : scalars s -> scalars (trim s).
Proof. intros H. unfold trim. apply Forall_rev, scalars_trim_start, Forall_rev, scalars_trim_start, H. Qed.

Lemma trim_start_snoc_nonwhite c s : is_whitespace c = false -> trim_start (s ++ [c]) = trim_start s ++ [c].
Proof.
  intros W. induction s as [|x s IH]; cbn [app trim_start]; [now rewrite W|].
  destruct (is_whitespace x); [exact IH|reflexivity].
Qed.
Lemma trim_start_cases s : trim_start s = [] \/ exists l c r, s = l ++ c :: r /\ trim_start s = c :: r /\ is_whitespace c = false.
Proof.
  induction s as [|x s IH]; cbn [trim_start]; [now left|].
  destruct (is_whitespace x) eqn:W.
  - destruct IH as [IH|(l & c & r & -> & E & C)]; [now left|right]. exists (x :: l), c, r. auto.
  - right. exists [], x, s. auto.
Qed.

Lemma slice_utf8 l t r : slice (utf8 (l ++ t ++ r)) (lenN (utf8 l)) (lenN (utf8 t)) = utf8 t.
Proof.
  unfold slice. rewrite !utf8_app, !lenN_app.
  rewrite !N.min_l by lia. unfold lenN. rewrite !Nat2N.id.
  rewrite skipn_app, skipn_all, Nat.sub_diag. cbn [skipn app].
  rewrite firstn_app, Nat.sub_diag, firstn_all. cbn [firstn]. apply app_nil_r.
Qed.

Lemma str_trim_utf8 s : scalars s -> str_trim (utf8 s) = utf8 (trim s).
Proof.
  intros H. unfold str_trim, trim.
  pose proof (next_reject_utf8 s H (List.length (utf8 s)) 0 (utf8_len_ge s)) as A.
  destruct (trim_start_cases s) as [E|(l0 & c & r & Es & E & W)]; rewrite E in *.
  { rewrite A. reflexivity. }
  destruct A as (l & Es2 & ->).
  assert (Hr : scalars r) by (rewrite Es in H; apply Forall_app in H as [_ H]; inversion H; assumption).
  rewrite N.add_0_l.
  pose proof (next_reject_back_utf8 (rev r) (Forall_rev Hr) (List.length (utf8 r)) (lenN (utf8 s))) as B.
  rewrite rev_involutive, rev_length in B. specialize (B (utf8_len_ge r)).
  assert (Ls : lenN (utf8 s) = lenN (utf8 l) + (lenN (utf8_char c) + lenN (utf8 r))).
  { rewrite Es2, utf8_app, utf8_cons, !lenN_app. lia. }
  specialize (B ltac:(lia)).
  cbn [rev]. rewrite trim_start_snoc_nonwhite by exact W.
  rewrite rev_app_distr. cbn [rev app].
  destruct (trim_start_cases (rev r)) as [E3|(l3 & d & r3 & Er & E3 & _)]; rewrite E3 in *.
  - rewrite B. cbn [rev].
    replace (lenN (utf8 l) + lenN (utf8_char c) - lenN (utf8 l)) with (lenN (utf8 [c])).
    2:{ cbn [utf8 flat_map]. rewrite app_nil_r. lia. }
    rewrite Es2. apply (slice_utf8 l [c] r).
  - rewrite B. rewrite Ls.
    assert (R : r = rev (d :: r3) ++ rev l3).
    { rewrite <- (rev_involutive r), Er, rev_app_distr. reflexivity. }
    replace (lenN (utf8 l) + (lenN (utf8_char c) + lenN (utf8 r)) - lenN (utf8 r) + lenN (utf8 (rev (d :: r3))) - lenN (utf8 l))
      with (lenN (utf8 (c :: rev (d :: r3)))).
    2:{ rewrite utf8_cons, lenN_app. lia. }
    rewrite Es2. rewrite R. rewrite app_comm_cons. apply (slice_utf8 l (c :: rev (d :: r3)) (rev l3)).
Qed.

(** ** Searching for the separator *)
Lemma bytes_start_utf8 p : Forall (fun c => c < 128) p -> forall s, scalars s -> bytes_start (utf8 s) (utf8 p) = starts_with s p.
Proof.
  induction 1 as [|a p A _ IH]; intros s H; [destruct s as [|x s]; [reflexivity|]; cbn [starts_with]; cbn [utf8 flat_map]; destruct (utf8_char x ++ flat_map utf8_char s); reflexivity|].
  rewrite utf8_cons, utf8_char_ascii by exact A. cbn [app].
  destruct H as [|c s Hc Hs]; [reflexivity|]. rewrite utf8_cons. cbn [starts_with].
  destruct (N.lt_ge_cases c 128) as [L|L].
  - rewrite utf8_char_ascii by exact L. cbn [app bytes_start]. nb. now rewrite IH.
  - replace (a =? c) with false by lia. cbn [andb].
    pose proof (utf8_char_high c L (scalar_lt c Hc)) as F. pose proof (utf8_char_len c) as G.
    destruct (utf8_char c) as [|b r]; [cbn in G; lia|]. inversion F; subst. cbn [app bytes_start].
    nb. replace (a =? n8 b) with false by lia. reflexivity.
Qed.
Lemma sep_ascii : Forall (fun c => c < 128) (txt " -- ").
Proof. repeat constructor; cbn; lia. Qed.
Lemma skip_high bs : Forall (fun b => 128 <= n8 b) bs -> forall rest i,
  byte_matches SEP (bs ++ rest) i 0 = byte_matches SEP rest (i + lenN bs) 0.
Proof.
  induction 1 as [|b bs B _ IH]; intros rest i.
  - cbn [app]. f_equal. change (lenN (@nil byte)) with 0. lia.
  - cbn [app byte_matches].
    assert (E : bytes_start (b :: bs ++ rest) SEP = false).
    { change SEP with (b8 32 :: utf8 (txt "-- ")). cbn [bytes_start]. nb.
      destruct (N.eqb_spec 32 (n8 b)); [lia|reflexivity]. }
    rewrite E, IH. f_equal. unfold lenN. cbn [List.length]. lia.
Qed.
Lemma starts_with_app s p : starts_with s p = true -> exists t, s = p ++ t.
Proof.
  revert s. induction p as [|a p IH]; intros s H; [now exists s|].
  destruct s as [|b s]; [discriminate|]. cbn in H. apply andb_true_iff in H as [E H].
  apply N.eqb_eq in E. subst b. destruct (IH s H) as [t ->]. now exists t.
Qed.

Lemma matches_utf8 s : scalars s -> forall pre skip,
  Forall (fun c => c < 128) (firstn skip s) ->
  byte_matches SEP (utf8 s) (lenN (utf8 pre)) skip =
  map (fun k => lenN (utf8 (firstn k (pre ++ s)))) (match_indices_from (txt " -- ") s (List.length pre) skip).
Proof.
  induction 1 as [|c s Hc Hs IH]; intros pre skip F; [destruct skip; reflexivity|].
  assert (Pre : pre ++ c :: s = (pre ++ [c]) ++ s) by (rewrite <- app_assoc; reflexivity).
  assert (Len : S (List.length pre) = List.length (pre ++ [c])) by (rewrite app_length; cbn; lia).
  assert (LU : lenN (utf8 (pre ++ [c])) = lenN (utf8 pre) + lenN (utf8_char c)).
  { rewrite utf8_app, lenN_app. cbn [utf8 flat_map]. now rewrite app_nil_r. }
  assert (Here : lenN (utf8 (firstn (List.length pre) (pre ++ c :: s))) = lenN (utf8 pre)).
  { rewrite firstn_app, Nat.sub_diag, firstn_all. cbn [firstn]. now rewrite app_nil_r. }
  cbn [match_indices_from]. destruct skip as [|k].
  - destruct (N.lt_ge_cases c 128) as [L|L].
    + assert (St : bytes_start (utf8 (c :: s)) SEP = starts_with (c :: s) (txt " -- ")).
      { apply bytes_start_utf8; [exact sep_ascii|]. constructor; assumption. }
      rewrite utf8_cons, utf8_char_ascii in * by exact L. cbn [app] in *. cbn [byte_matches]. rewrite St.
      assert (L1 : lenN (utf8 pre) + 1 = lenN (utf8 (pre ++ [c]))) by (rewrite LU; reflexivity).
      rewrite L1, Len.
      destruct (starts_with (c :: s) (txt " -- ")) eqn:E; cbn [map].
      * rewrite Here. f_equal. rewrite Pre. rewrite IH; [reflexivity|].
        destruct (starts_with_app _ _ E) as [t T]. injection T as -> ->. repeat constructor; cbn; lia.
      * rewrite Pre. apply IH. constructor.
    + rewrite utf8_cons, skip_high by (now apply utf8_char_high; [|apply scalar_lt]).
      replace (starts_with (c :: s) (txt " -- ")) with false.
      2:{ symmetry. change (txt " -- ") with (32 :: txt "-- "). cbn [starts_with]. destruct (N.eqb_spec 32 c); [lia|reflexivity]. }
      rewrite <- LU, Len, Pre. apply IH. constructor.
  - cbn [firstn] in F. inversion F as [|? ? L F']; subst.
    rewrite utf8_cons, utf8_char_ascii in * by exact L. cbn [app byte_matches].
    assert (L1 : lenN (utf8 pre) + 1 = lenN (utf8 (pre ++ [c]))) by (rewrite LU; reflexivity).
    rewrite L1, Len, Pre. apply IH. exact F'.
Qed.

Lemma u_find_utf8 raw : scalars raw -> forall l,
  u_find (utf8 raw) (map (fun k => lenN (utf8 (firstn k raw))) l) =
  Ok (option_map (fun k => lenN (utf8 (firstn k raw))) (find (fun i => check_outside_double_quotes (firstn i raw)) l)).
Proof.
  intros H l. induction l as [|k l IH]; [reflexivity|]. cbn [map u_find find].
  assert (E : str_to (E := u_error) (utf8 raw) (lenN (utf8 (firstn k raw))) = Ok (utf8 (firstn k raw))).
  { rewrite <- (firstn_skipn k raw) at 1. apply str_to_utf8.
    unfold scalars in *. rewrite <- (firstn_skipn k raw) in H. apply Forall_app in H. apply H. }
  rewrite E. cbn [obind]. unfold u_outside_quotes, check_outside_double_quotes.
  rewrite count_byte_utf8; [|unfold scalars in *; rewrite <- (firstn_skipn k raw) in H; apply Forall_app in H; apply H|lia].
  destruct (count (firstn k raw) 34 mod 2 =? 0); [reflexivity|exact IH].
Qed.

Lemma match_sound p s : forall i skip k, In k (match_indices_from p s i skip) ->
  exists j, k = (i + j)%nat /\ starts_with (skipn j s) p = true.
Proof.
  induction s as [|c s IH]; intros i skip k H; [destruct H|]. cbn [match_indices_from] in H.
  destruct skip as [|sk].
  - destruct (starts_with (c :: s) p) eqn:E.
    + destruct H as [<-|H]; [exists 0%nat; split; [lia|exact E]|].
      destruct (IH _ _ _ H) as (j & -> & Q). exists (S j). split; [lia|exact Q].
    + destruct (IH _ _ _ H) as (j & -> & Q). exists (S j). split; [lia|exact Q].
  - destruct (IH _ _ _ H) as (j & -> & Q). exists (S j). split; [lia|exact Q].
Qed.

(** ** The builder *)
Definition enc (c : cmdline) : ucmdline := mkU (utf8 (boot_args c)) (utf8 (init_args c)) (capacity c).
Definition enc_res (r : cres) : ures := (enc (fst r), enc_out (fun x => x) (snd r)).

Lemma utf8_nil_iff s : utf8 s = [] <-> s = [].
Proof.
  destruct s as [|c s]; [split; reflexivity|]. rewrite utf8_cons. pose proof (utf8_char_len c) as G.
  destruct (utf8_char c); [cbn in G; lia|]. split; discriminate.
Qed.
Lemma empty_utf8 s : empty (utf8 s) = is_empty s.
Proof.
  destruct s as [|c s]; [reflexivity|]. cbn [is_empty]. destruct (utf8 (c :: s)) eqn:E; [|reflexivity].
  apply (proj1 (utf8_nil_iff _)) in E. discriminate.
Qed.
Lemma len_utf8_str s : lenN (utf8 s) = str_len s.
Proof. symmetry. apply str_len_utf8. Qed.
Lemma sep_len_u : lenN SEP = 4.
Proof. reflexivity. Qed.

Lemma valid_str_u s : scalars s -> u_valid_str (utf8 s) = enc_out (fun x => x) (valid_str s).
Proof. intros H. unfold u_valid_str, valid_str. rewrite chars_utf8 by exact H. destruct (forallb valid_char s); reflexivity. Qed.
Lemma quoted_u s : scalars s -> u_is_quoted (utf8 s) = is_quoted s.
Proof.
  intros H. unfold u_is_quoted, is_quoted. rewrite len_utf8_str. destruct (str_len s <? 2); [reflexivity|].
  destruct s as [|c s]; [reflexivity|].
  inversion H as [|? ? Hc Hs]; subst.
  rewrite utf8_cons at 1. rewrite next_char_utf8 by now apply scalar_lt.
  destruct (exists_last (l := c :: s) ltac:(discriminate)) as (l & d & E). rewrite E in *.
  rewrite last_char_utf8 by exact H. now rewrite last_last.
Qed.
Lemma dquotes_u s : scalars s -> u_contains_double_quotes (utf8 s) = contains_double_quotes s.
Proof. intros H. unfold u_contains_double_quotes, contains_double_quotes. rewrite len_utf8_str, chars_utf8 by exact H. reflexivity. Qed.
Lemma valid_key_u s : scalars s -> u_valid_key (utf8 s) = enc_out (fun x => x) (valid_key s).
Proof.
  intros H. unfold u_valid_key, valid_key. rewrite chars_utf8, !has_byte_utf8 by (exact H || lia).
  destruct (forallb valid_char s); [|reflexivity]. destruct (contains s 32); [reflexivity|]. destruct (contains s 61); reflexivity.
Qed.
Lemma valid_value_u s : scalars s -> u_valid_value (utf8 s) = enc_out (fun x => x) (valid_value s).
Proof.
  intros H. unfold u_valid_value, valid_value. rewrite chars_utf8, has_byte_utf8, dquotes_u, quoted_u by (exact H || lia).
  destruct (forallb valid_char s); [|reflexivity]. destruct (contains_double_quotes s); [reflexivity|].
  destruct (contains s 32 && negb (is_quoted s)); reflexivity.
Qed.
Lemma enc_uadd bld a b : uadd (E := u_error) bld a b = enc_out (fun x => x) (uadd (E := cerror) bld a b).
Proof. unfold uadd. repeat match goal with |- context [if ?x then _ else _] => destruct x end; reflexivity. Qed.
Lemma enc_ok_or (x : option N) : ok_or x (Plain TooLarge) = enc_out (fun x => x) (ok_or x TooLarge).
Proof. destruct x; reflexivity. Qed.
Lemma size_u bld c : u_size bld (enc c) = enc_out (fun x => x) (repr_size bld c).
Proof.
  unfold u_size, repr_size. cbn [enc u_boot u_init]. rewrite empty_utf8, !len_utf8_str, sep_len_u, !enc_uadd.
  change (str_len INIT_ARGS_SEPARATOR) with 4.
  destruct (uadd bld (str_len (boot_args c)) 1) as [n|e|p]; cbn [enc_out obind]; [|reflexivity|reflexivity].
  destruct (init_args c) as [|x i]; cbn [is_empty]; [reflexivity|].
  destruct (uadd bld 4 (str_len (x :: i))) as [t|e|p]; cbn [enc_out obind]; [|reflexivity|reflexivity].
  apply enc_uadd.
Qed.
Lemma utry_enc {T} c (x : outcome cerror T) k k' :
  (forall a, x = Ok a -> k' a = enc_res (k a)) ->
  utry (enc c) (enc_out (fun x => x) x) k' = enc_res (ctry c x k).
Proof. intros H. destruct x as [a|e|p]; cbn [enc_out utry ctry]; [now apply H|reflexivity|reflexivity]. Qed.

Lemma insert_str_u bld c s : scalars s -> u_insert_str bld (enc c) (utf8 s) = enc_res (insert_str bld c s).
Proof.
  intros H. unfold u_insert_str, insert_str. cbv zeta. rewrite str_trim_utf8 by exact H.
  rewrite valid_str_u by now apply scalars_trim. apply utry_enc. intros _ _.
  rewrite size_u. apply utry_enc. intros n _. cbn [enc u_boot u_init u_cap]. rewrite empty_utf8.
  replace (if is_empty (boot_args c) then Ok n else ok_or (checked_add n 1) (Plain TooLarge))
    with (enc_out (fun x => x) (if is_empty (boot_args c) then Ok n else ok_or (checked_add n 1) TooLarge))
    by (destruct (is_empty (boot_args c)); [reflexivity|symmetry; apply enc_ok_or]).
  apply utry_enc. intros n1 _. rewrite len_utf8_str, enc_ok_or. apply utry_enc. intros n2 _.
  destruct (capacity c <? n2); [reflexivity|]. unfold enc_res, enc, push_boot. cbn [fst snd enc_out].
  destruct (is_empty (boot_args c)); cbn [boot_args init_args capacity]; rewrite !utf8_app; reflexivity.
Qed.
Lemma insert_init_u bld c s : scalars s -> u_insert_init_args bld (enc c) (utf8 s) = enc_res (insert_init_args bld c s).
Proof.
  intros H. unfold u_insert_init_args, insert_init_args. cbv zeta. rewrite str_trim_utf8 by exact H.
  rewrite valid_str_u by now apply scalars_trim. apply utry_enc. intros _ _.
  rewrite size_u. apply utry_enc. intros n _. cbn [enc u_boot u_init u_cap]. rewrite empty_utf8, sep_len_u.
  change (str_len INIT_ARGS_SEPARATOR) with 4. rewrite enc_ok_or. apply utry_enc. intros n1 _.
  rewrite len_utf8_str, enc_ok_or. apply utry_enc. intros n2 _.
  destruct (capacity c <? n2); [reflexivity|]. unfold enc_res, enc, push_init. cbn [fst snd enc_out].
  destruct (is_empty (init_args c)); cbn [boot_args init_args capacity]; rewrite !utf8_app; reflexivity.
Qed.
Lemma scalars_app a b : scalars a -> scalars b -> scalars (a ++ b).
Proof. intros A B. apply Forall_app. split; assumption. Qed.
Lemma insert_u bld c k v : scalars k -> scalars v -> u_insert bld (enc c) (utf8 k) (utf8 v) = enc_res (insert bld c k v).
Proof.
  intros K V. unfold u_insert, insert. rewrite valid_key_u by exact K. apply utry_enc. intros _ _.
  rewrite valid_value_u by exact V. apply utry_enc. intros _ _.
  change ([b8 61] ++ utf8 v) with (utf8 ([61] ++ v)). rewrite <- utf8_app. apply insert_str_u.
  apply scalars_app; [exact K|]. apply scalars_app; [|exact V]. repeat constructor.
Qed.
Lemma collect_u vs : Forall scalars vs -> u_collect (map utf8 vs) = enc_out (map utf8) (collect_values vs).
Proof.
  induction 1 as [|v vs V _ IH]; [reflexivity|]. cbn [map u_collect collect_values].
  rewrite valid_value_u by exact V. destruct (valid_value v); cbn [enc_out obind]; [|reflexivity|reflexivity].
  rewrite IH. destruct (collect_values vs); reflexivity.
Qed.
Lemma collect_same vs l : collect_values vs = Ok l -> l = vs.
Proof.
  revert l. induction vs as [|v vs IH]; cbn [collect_values]; intros l E; [now injection E as <-|].
  destruct (valid_value v); cbn [obind] in E; try discriminate.
  destruct (collect_values vs) as [l'| |]; cbn [obind] in E; try discriminate. injection E as <-. now rewrite (IH l' eq_refl).
Qed.
Lemma join_u l : u_join [b8 44] (map utf8 l) = utf8 (join [44] l).
Proof.
  induction l as [|x [|y l] IH]; [reflexivity|reflexivity|].
  change (utf8 x ++ [b8 44] ++ u_join [b8 44] (map utf8 (y :: l)) = utf8 (x ++ [44] ++ join [44] (y :: l))).
  rewrite IH, !utf8_app. reflexivity.
Qed.
Lemma scalars_join l : Forall scalars l -> scalars (join [44] l).
Proof.
  induction l as [|x [|y l] IH]; intros H; [constructor|now inversion H|].
  inversion H; subst. change (scalars (x ++ [44] ++ join [44] (y :: l))).
  apply scalars_app; [assumption|]. apply scalars_app; [repeat constructor|auto].
Qed.
Lemma insert_multiple_u bld c k vs : scalars k -> Forall scalars vs ->
  u_insert_multiple bld (enc c) (utf8 k) (map utf8 vs) = enc_res (insert_multiple bld c k vs).
Proof.
  intros K V. unfold u_insert_multiple, insert_multiple. rewrite valid_key_u by exact K. apply utry_enc. intros _ _.
  destruct vs as [|v vs]; [reflexivity|].
  rewrite collect_u by exact V. cbn [map].
  destruct (collect_values (v :: vs)) as [l|e|p] eqn:E; cbn [enc_out utry ctry]; [|reflexivity|reflexivity].
  apply collect_same in E. subst l. rewrite join_u.
  change ([b8 61] ++ utf8 (join [44] (v :: vs))) with (utf8 ([61] ++ join [44] (v :: vs))). rewrite <- utf8_app.
  apply insert_str_u. apply scalars_app; [exact K|]. apply scalars_app; [repeat constructor|]. apply scalars_join, V.
Qed.
Lemma printable_scalars t : Forall printable t -> scalars t.
Proof. apply Forall_impl. intros c P. unfold printable, scalar in *. lia. Qed.
Lemma device_scalars size base irq id : scalars (txt "virtio_mmio.device=" ++ device_text size base irq id).
Proof.
  apply printable_scalars. eapply Forall_impl; [|apply device_text_ok]. intros c [P _]. exact P.
Qed.
Lemma virtio_u bld c size base irq id :
  u_add_virtio_mmio_device bld (enc c) size base irq id = enc_res (add_virtio_mmio_device bld c size base irq id).
Proof.
  destruct (N.eq_dec size 0) as [->|NZ]; [reflexivity|].
  rewrite virtio_unfold by exact NZ. rewrite <- insert_str_u by apply device_scalars.
  unfold u_add_virtio_mmio_device. destruct (N.eqb_spec size 0); [contradiction|]. cbv zeta. f_equal.
  unfold device_text. destruct id; rewrite !utf8_app, <- ?app_assoc; [reflexivity|].
  cbn [utf8 flat_map]. rewrite app_nil_r. reflexivity.
Qed.
Lemma as_cstring_u c : u_as_cstring (enc c) = enc_out (fun x => x) (as_cstring c).
Proof.
  unfold u_as_cstring, as_cstring. cbn [enc u_boot u_init]. rewrite !empty_utf8.
  assert (X : forall b, match cstring_new b with Ok x => Ok x | Err _ => Err (Plain NullTerminator) | Panic p => Panic p end =
              enc_out (fun x => x) (cstring_new b)).
  { intros b. unfold cstring_new. destruct (existsb _ b); reflexivity. }
  destruct (is_empty (boot_args c)), (is_empty (init_args c)); cbn [andb]; [apply X|reflexivity|apply X|].
  rewrite X. f_equal. f_equal. rewrite !utf8_app. reflexivity.
Qed.
Lemma run_u bld c o : op_scalars o -> u_run bld (enc c) (enc_op o) = enc_res (run_op bld c o).
Proof.
  destruct o; cbn [op_scalars enc_op u_run run_op]; intros H.
  - apply insert_u; apply H.
  - apply insert_multiple_u; apply H.
  - apply insert_str_u, H.
  - apply insert_init_u, H.
  - apply virtio_u.
Qed.

Lemma skipn_plus {T} a b (l : list T) : skipn (a + b) l = skipn b (skipn a l).
Proof. revert l. induction a as [|a IH]; intros l; [reflexivity|]. destruct l as [|x l]; [now rewrite !skipn_nil|]. apply IH. Qed.
Lemma try_from_u bld raw cap : scalars raw -> lenN (utf8 raw) < 2 ^ 63 ->
  u_try_from bld (utf8 raw) cap = enc_out enc (cmdline_try_from raw cap).
Proof.
  intros H Lr. unfold u_try_from, cmdline_try_from. destruct (cap =? 0); [reflexivity|].
  pose proof (matches_utf8 raw H [] 0%nat ltac:(constructor)) as M. cbn [app List.length utf8 flat_map] in M.
  change (lenN (@nil byte)) with 0 in M. rewrite M, u_find_utf8 by exact H.
  cbn [obind]. unfold split_cmdline, match_indices, INIT_ARGS_SEPARATOR.
  set (found := find _ _).
  assert (P : obind (match option_map (fun k => lenN (utf8 (firstn k raw))) found with
           | None => Ok (utf8 raw, [])
           | Some i => obind (str_to (utf8 raw) i) (fun boot =>
                       obind (uadd bld i (lenN SEP)) (fun j =>
                       obind (str_from (utf8 raw) j) (fun init => Ok (boot, init))))
           end) (fun p => @Ok u_error _ p) =
         let (b, i) := match found with None => (raw, []) | Some i => (firstn i raw, skipn (i + List.length (txt " -- ")) raw) end in
         Ok (utf8 b, utf8 i)).
  { destruct found as [k|] eqn:Ef; cbn [option_map]; [|reflexivity].
    unfold found in Ef. apply find_some in Ef as [I1 _].
    destruct (match_sound _ _ _ _ _ I1) as (j & -> & St). cbn [Nat.add] in *.
    destruct (starts_with_app _ _ St) as [t T].
    assert (R : raw = firstn j raw ++ txt " -- " ++ t) by (rewrite <- T; symmetry; apply firstn_skipn).
    assert (Hsk : scalars (skipn j raw)).
    { unfold scalars in *. rewrite <- (firstn_skipn j raw) in H. apply Forall_app in H. apply H. }
    assert (Ht : scalars t). { rewrite T in Hsk. apply Forall_app in Hsk. apply Hsk. }
    assert (E1 : str_to (E := u_error) (utf8 raw) (lenN (utf8 (firstn j raw))) = Ok (utf8 (firstn j raw))).
    { rewrite <- (firstn_skipn j raw) at 1. apply str_to_utf8. exact Hsk. }
    rewrite E1. cbn [obind].
    assert (LR : lenN (utf8 raw) = lenN (utf8 (firstn j raw)) + (4 + lenN (utf8 t))).
    { rewrite R at 1. rewrite !utf8_app, !lenN_app. reflexivity. }
    rewrite uadd_ok.
    2:{ rewrite sep_len_u. change (2 ^ 63) with 9223372036854775808 in Lr. unfold two64. lia. }
    cbn [obind].
    assert (E2 : str_from (E := u_error) (utf8 raw) (lenN (utf8 (firstn j raw)) + lenN SEP) = Ok (utf8 t)).
    { replace (lenN (utf8 (firstn j raw)) + lenN SEP) with (lenN (utf8 (firstn j raw ++ txt " -- "))) by (rewrite utf8_app, lenN_app; reflexivity).
      rewrite R at 1. rewrite app_assoc. apply str_from_utf8. exact Ht. }
    rewrite E2. cbn [obind]. do 2 f_equal. f_equal.
    rewrite skipn_plus, T. reflexivity. }
  set (parts := match option_map _ found with None => _ | Some _ => _ end) in *.
  destruct (match found with None => (raw, []) | Some i => (firstn i raw, skipn (i + List.length (txt " -- ")) raw) end) as [b0 i0] eqn:Es.
  assert (Pp : parts = Ok (utf8 b0, utf8 i0)).
  { destruct parts as [p|e|p]; cbn [obind] in P; congruence. }
  rewrite Pp. cbn [obind fst snd].
  assert (Sc : scalars b0 /\ scalars i0).
  { unfold scalars in *. destruct found as [k|]; injection Es as <- <-.
    - split; [rewrite <- (firstn_skipn k raw) in H|rewrite <- (firstn_skipn (k + List.length (txt " -- ")) raw) in H]; apply Forall_app in H; apply H.
    - split; [exact H|constructor]. }
  destruct Sc as [Sb Si]. rewrite !str_trim_utf8 by assumption. rewrite !len_utf8_str, sep_len_u, empty_utf8.
  change (str_len (txt " -- ")) with 4. rewrite enc_ok_or.
  destruct (ok_or (checked_add (str_len (trim b0)) 1) TooLarge) as [n|e|p]; cbn [enc_out obind]; [|reflexivity|reflexivity].
  destruct (trim i0) as [|x it] eqn:Ei; cbn [is_empty].
  - cbn [obind]. destruct (cap <? n); reflexivity.
  - rewrite enc_ok_or. destruct (ok_or (checked_add n 4) TooLarge) as [n1|e|p]; cbn [enc_out obind]; [|reflexivity|reflexivity].
    rewrite enc_ok_or. destruct (ok_or (checked_add n1 (str_len (x :: it))) TooLarge) as [n2|e|p]; cbn [enc_out obind]; [|reflexivity|reflexivity].
    destruct (cap <? n2); reflexivity.
Qed.
