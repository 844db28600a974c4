(** Lemmas about texts: UTF-8, trimming, digits. *)
From Verif Require Import Base Base_proofs Text Cmdline SpecCmdline.

Lemma lenN_utf8_char c : lenN (utf8_char c) = len_utf8 c.
Proof.
  unfold utf8_char, len_utf8.
  destruct (c <? 128); [reflexivity|]. destruct (c <? 2048); [reflexivity|].
  destruct (c <? 65536); reflexivity.
Qed.

Lemma str_len_utf8 s : str_len s = lenN (utf8 s).
Proof.
  induction s as [|c s IH]; [reflexivity|].
  cbn [str_len utf8 flat_map]. rewrite lenN_app, lenN_utf8_char. unfold utf8 in IH. lia.
Qed.

Lemma utf8_app a b : utf8 (a ++ b) = utf8 a ++ utf8 b.
Proof. unfold utf8. apply flat_map_app. Qed.

Lemma str_len_app a b : str_len (a ++ b) = str_len a + str_len b.
Proof. rewrite !str_len_utf8, utf8_app, lenN_app. reflexivity. Qed.

Lemma len_utf8_pos c : 1 <= len_utf8 c.
Proof. unfold len_utf8. destruct (c <? 128), (c <? 2048), (c <? 65536); lia. Qed.

Lemma str_len_length s : lenN s <= str_len s.
Proof.
  induction s as [|c s IH]; [reflexivity|]. cbn [str_len]. rewrite lenN_cons.
  pose proof (len_utf8_pos c). lia.
Qed.

Lemma str_len_zero s : str_len s = 0 <-> s = [].
Proof.
  split; [|now intros ->]. intros H. pose proof (str_len_length s). apply lenN_zero. lia.
Qed.

Lemma str_len_printable s : Forall printable s -> str_len s = lenN s.
Proof.
  induction s as [|c s IH]; [reflexivity|]. intros H. inversion H as [|? ? Hc Hs]; subst.
  cbn [str_len]. rewrite lenN_cons, IH by assumption. unfold printable in Hc.
  unfold len_utf8. destruct (N.ltb_spec c 128); lia.
Qed.

Lemma utf8_printable s : Forall printable s -> utf8 s = map b8 s.
Proof.
  induction s as [|c s IH]; [reflexivity|]. intros H. inversion H as [|? ? Hc Hs]; subst.
  cbn [utf8 flat_map map]. unfold utf8 in IH. rewrite IH by assumption.
  unfold utf8_char, printable in *. destruct (N.ltb_spec c 128); [reflexivity|lia].
Qed.

Lemma utf8_char_zero c : In x00 (utf8_char c) <-> c = 0.
Proof.
  assert (forall n, b8 n = x00 <-> n mod 256 = 0) as Hz.
  { intros n. rewrite <- n8_b8. split; [intros ->; reflexivity|].
    intros H. apply n8_inj. rewrite H. reflexivity. }
  unfold utf8_char.
  destruct (N.ltb_spec c 128) as [H1|H1];
    [|destruct (N.ltb_spec c 2048) as [H2|H2]; [|destruct (N.ltb_spec c 65536) as [H3|H3]]];
    cbn [In]; rewrite ?Hz.
  all: split; [intros H|intros ->; lia].
  - destruct H as [H|[]]. lia.
  - exfalso. destruct H as [H|[H|[]]]; lia.
  - exfalso. destruct H as [H|[H|[H|[]]]]; lia.
  - exfalso. destruct H as [H|[H|[H|[H|[]]]]]; lia.
Qed.

Lemma utf8_zero s : In x00 (utf8 s) <-> In 0 s.
Proof.
  unfold utf8. rewrite in_flat_map. split.
  - intros (c & Hin & H). apply utf8_char_zero in H. now subst.
  - intros H. exists 0. split; [exact H|]. now apply utf8_char_zero.
Qed.

(** *** white space and trimming *)
Lemma is_whitespace_iff c : is_whitespace c = true <-> white c.
Proof.
  unfold is_whitespace, white, white_space_chars. cbn [In]. split.
  - intros H. rewrite !orb_true_iff, !andb_true_iff, !N.leb_le, !N.eqb_eq in H. lia.
  - intros H. rewrite !orb_true_iff, !andb_true_iff, !N.leb_le, !N.eqb_eq. lia.
Qed.

Lemma is_whitespace_false c : is_whitespace c = false <-> ~ white c.
Proof. rewrite <- is_whitespace_iff. destruct (is_whitespace c); split; congruence. Qed.

Lemma trim_start_spec s :
  exists l, s = l ++ trim_start s /\ Forall white l /\
    (forall c t, trim_start s = c :: t -> ~ white c).
Proof.
  induction s as [|c s (l & E & Hl & Hh)]; cbn [trim_start].
  - exists []. repeat split; [constructor|discriminate].
  - destruct (is_whitespace c) eqn:Ew.
    + exists (c :: l). cbn [app]. rewrite <- E. repeat split; [|exact Hh].
      constructor; [now apply is_whitespace_iff|exact Hl].
    + exists []. repeat split; [constructor|]. intros c' t H. injection H as <- _.
      now apply is_whitespace_false.
Qed.

Lemma trim_spec s : trimmed_of s (trim s).
Proof.
  unfold trim.
  destruct (trim_start_spec s) as (l & E & Hl & Hh).
  destruct (trim_start_spec (rev (trim_start s))) as (r & E' & Hr & Ht).
  set (t := trim_start (rev (trim_start s))) in *.
  assert (trim_start s = rev t ++ rev r) as E2.
  { rewrite <- (rev_involutive (trim_start s)), E', rev_app_distr. reflexivity. }
  exists l, (rev r). rewrite <- E2, <- E. split; [reflexivity|]. split; [exact Hl|].
  split; [now apply Forall_rev|]. split.
  - intros c t' H. apply (Hh c (t' ++ rev r)). rewrite E2, H. reflexivity.
  - intros c t' H. apply (Ht c (rev t')).
    rewrite <- (rev_involutive t), H, rev_app_distr. reflexivity.
Qed.

Lemma trim_start_app_white l t : Forall white l -> trim_start (l ++ t) = trim_start t.
Proof.
  induction l as [|c l IH]; intros H; [reflexivity|]. inversion H as [|? ? Hc Hl]; subst.
  cbn. rewrite (proj2 (is_whitespace_iff c) Hc). apply IH, Hl.
Qed.

Lemma trim_start_id t : (forall c t', t = c :: t' -> ~ white c) -> trim_start t = t.
Proof.
  destruct t as [|c t]; intros H; [reflexivity|]. cbn.
  rewrite (proj2 (is_whitespace_false c)); [reflexivity|]. eapply H. reflexivity.
Qed.

Lemma trimmed_unique s t : trimmed_of s t -> t = trim s.
Proof.
  intros (l & r & -> & Hl & Hr & Hh & Ht). unfold trim.
  rewrite trim_start_app_white by exact Hl.
  destruct t as [|c t].
  - cbn [app]. destruct (trim_start_spec r) as (l' & E & Hl' & Hh').
    destruct (trim_start r) as [|c r'] eqn:Er; [reflexivity|]. exfalso.
    apply (Hh' c r' eq_refl). rewrite E in Hr. apply Forall_app in Hr as [_ Hr].
    now inversion Hr.
  - rewrite (trim_start_id ((c :: t) ++ r)).
    2:{ intros c' t' H. injection H as <- _. eapply Hh. reflexivity. }
    rewrite rev_app_distr, trim_start_app_white by (now apply Forall_rev).
    rewrite trim_start_id; [now rewrite rev_involutive|].
    intros c' t' H. apply (Ht c' (rev t')).
    rewrite <- (rev_involutive (c :: t)), H. reflexivity.
Qed.

Lemma trimmed_iff s t : trimmed_of s t <-> t = trim s.
Proof. split; [apply trimmed_unique|intros ->; apply trim_spec]. Qed.

Lemma trimmed_self t :
  (forall c t', t = c :: t' -> ~ white c) -> (forall c t', t = t' ++ [c] -> ~ white c) -> trim t = t.
Proof.
  intros H1 H2. symmetry. apply trimmed_unique. exists [], []. rewrite app_nil_r.
  repeat split; auto.
Qed.

Lemma trim_trim s : trim (trim s) = trim s.
Proof. destruct (trim_spec s) as (l & r & _ & _ & _ & H1 & H2). now apply trimmed_self. Qed.

Lemma trim_incl s c : In c (trim s) -> In c s.
Proof.
  destruct (trim_spec s) as (l & r & E & _). intros H. rewrite E.
  apply in_or_app. right. apply in_or_app. now left.
Qed.

Lemma trim_length s : str_len (trim s) <= str_len s.
Proof.
  destruct (trim_spec s) as (l & r & E & _). rewrite E at 2. rewrite !str_len_app. lia.
Qed.

Lemma white_not_quote c : white c -> c <> 34.
Proof. unfold white, white_space_chars. cbn [In]. lia. Qed.

Lemma printable_white c : printable c -> white c -> c = 32.
Proof. unfold printable, white, white_space_chars. cbn [In]. lia. Qed.

(** *** decimal / hexadecimal digits *)
Lemma digit_char_dec d : d < 10 -> dec_digit (digit_char d) = Some d.
Proof.
  intros H. unfold digit_char, dec_digit. destruct (N.ltb_spec d 10); [|lia].
  replace ((48 <=? 48 + d) && (48 + d <=? 57)) with true by lia. f_equal. lia.
Qed.

Lemma digit_char_hex d : d < 16 -> hex_digit (digit_char d) = Some d.
Proof.
  intros H. unfold digit_char, hex_digit. destruct (N.ltb_spec d 10).
  - replace ((48 <=? 48 + d) && (48 + d <=? 57)) with true by lia. f_equal. lia.
  - replace ((48 <=? 87 + d) && (87 + d <=? 57)) with false by lia.
    replace ((97 <=? 87 + d) && (87 + d <=? 102)) with true by lia. f_equal. lia.
Qed.

Lemma digit_char_printable d : d < 16 -> printable (digit_char d) /\ digit_char d <> 32 /\ digit_char d <> 61.
Proof.
  intros H. unfold digit_char, printable. destruct (N.ltb_spec d 10); lia.
Qed.

(** Value of the digits produced, whatever follows. *)
Lemma digits_read digit base :
  2 <= base -> base <= 16 -> (forall d, d < base -> digit (digit_char d) = Some d) ->
  forall fuel n acc v,
    n < 2 ^ N.of_nat fuel ->
    exists ds, digits base fuel n acc = ds ++ acc /\ (ds = [] -> fuel = O) /\
      Forall (fun c => exists d, d < base /\ c = digit_char d) ds /\
      (forall rest, read_digits digit base v (ds ++ rest) =
        read_digits digit base (v * base ^ lenN ds + n) rest).
Proof.
  intros Hb1 Hb2 Hdig. induction fuel as [|fuel IH]; intros n acc v Hn.
  - exists []. cbn. repeat split; auto. intros rest.
    change (2 ^ N.of_nat 0) with 1 in Hn. rewrite (lenN_nil : lenN (@nil N) = 0).
    rewrite N.pow_0_r. f_equal. lia.
  - cbn [digits].
    assert (n mod base < base) as Hm by (apply N.mod_lt; lia).
    pose proof (N.div_mod' n base) as Hdm.
    destruct (N.eqb_spec (n / base) 0) as [E|E].
    + exists [digit_char (n mod base)]. repeat split; try discriminate.
      * constructor; [eauto|constructor].
      * intros rest. cbn [app read_digits]. rewrite Hdig by assumption.
        f_equal. rewrite lenN_cons, lenN_nil. change (1 + 0) with 1. rewrite N.pow_1_r. rewrite E in Hdm. lia.
    + destruct (IH (n / base) (digit_char (n mod base) :: acc) v) as (ds & E1 & E2 & E3 & E4).
      { rewrite Nat2N.inj_succ, N.pow_succ_r in Hn by lia.
        apply N.div_lt_upper_bound; [lia|]. nia. }
      exists (ds ++ [digit_char (n mod base)]). rewrite <- app_assoc. repeat split.
      * exact E1.
      * intros H. destruct ds; discriminate.
      * apply Forall_app. split; [exact E3|]. constructor; [eauto|constructor].
      * intros rest. rewrite <- app_assoc. cbn [app]. rewrite E4.
        cbn [read_digits]. rewrite Hdig by assumption. f_equal.
        rewrite lenN_app, lenN_cons, lenN_nil. change (1 + 0) with 1.
        rewrite N.pow_add_r, N.pow_1_r. nia.
Qed.

Lemma size_nat_bound n : n < 2 ^ N.of_nat (S (N.size_nat n)).
Proof.
  rewrite Nat2N.inj_succ, N.pow_succ_r by lia.
  destruct n as [|p]; [reflexivity|].
  pose proof (N.size_gt (N.pos p)) as H.
  assert (N.of_nat (N.size_nat (N.pos p)) = N.size (N.pos p)) as ->; [|lia].
  clear H. cbn. induction p as [p IH|p IH|]; cbn; [| |reflexivity];
    rewrite Nat2N.inj_succ, IH; reflexivity.
Qed.

Lemma fmt_read digit base n :
  2 <= base -> base <= 16 -> (forall d, d < base -> digit (digit_char d) = Some d) ->
  forall rest, (forall c r, rest = c :: r -> digit c = None) ->
  read_number digit base (digits base (S (N.size_nat n)) n [] ++ rest) = Some (n, rest).
Proof.
  intros Hb1 Hb2 Hd rest Hrest.
  destruct (digits_read digit base Hb1 Hb2 Hd (S (N.size_nat n)) n [] 0 (size_nat_bound n))
    as (ds & E1 & E2 & E3 & E4).
  rewrite E1, app_nil_r. specialize (E4 rest).
  destruct ds as [|c ds]; [specialize (E2 eq_refl); discriminate|].
  unfold read_number. cbn [app]. inversion E3 as [|? ? (d & Hdlt & ->) ?]; subst.
  rewrite Hd by assumption. cbn [app] in E4. rewrite E4. f_equal.
  replace (0 * base ^ lenN (digit_char d :: ds) + n) with n by lia.
  destruct rest as [|c' r']; [reflexivity|]. cbn. now rewrite (Hrest c' r' eq_refl).
Qed.

Lemma fmt_dec_read n rest :
  (forall c r, rest = c :: r -> dec_digit c = None) ->
  read_number dec_digit 10 (fmt_dec n ++ rest) = Some (n, rest).
Proof. intros H. apply fmt_read; auto using digit_char_dec; lia. Qed.

Lemma fmt_hex_read n rest :
  (forall c r, rest = c :: r -> hex_digit c = None) ->
  read_number hex_digit 16 (fmt_hex n ++ rest) = Some (n, rest).
Proof. intros H. apply fmt_read; auto using digit_char_hex; lia. Qed.

Lemma fmt_chars base n : 2 <= base -> base <= 16 ->
  Forall (fun c => exists d, d < base /\ c = digit_char d) (digits base (S (N.size_nat n)) n [])
  /\ digits base (S (N.size_nat n)) n [] <> [].
Proof.
  intros H1 H2.
  destruct (digits_read (fun c => if c <? 58 then Some (c - 48) else Some (c - 87)) base H1 H2) with
    (fuel := S (N.size_nat n)) (n := n) (acc := @nil char) (v := 0) as (ds & E1 & E2 & E3 & _).
  - intros d Hd. unfold digit_char. destruct (N.ltb_spec d 10).
    + destruct (N.ltb_spec (48 + d) 58); f_equal; lia.
    + destruct (N.ltb_spec (87 + d) 58); f_equal; lia.
  - apply size_nat_bound.
  - rewrite E1, app_nil_r. split; [exact E3|]. intros ->. specialize (E2 eq_refl). discriminate.
Qed.

Lemma fmt_printable base n : 2 <= base -> base <= 16 ->
  Forall (fun c => printable c /\ c <> 32) (digits base (S (N.size_nat n)) n []).
Proof.
  intros H1 H2. destruct (fmt_chars base n H1 H2) as [H _].
  eapply Forall_impl; [|exact H]. intros c (d & Hd & ->).
  destruct (digit_char_printable d) as (A & B & _); [lia|]. auto.
Qed.
