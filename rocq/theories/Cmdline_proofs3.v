(** * Cmdline_proofs3: parsing round trips and the virtio device text (C10-C15). *)
From Verif Require Import Base Base_proofs Text Cmdline SpecCmdline Text_proofs Cmdline_proofs Cmdline_proofs2.

(** ** quote parity and lists *)
Lemma white_no_quotes l : Forall white l -> count_occ N.eq_dec l 34 = O.
Proof.
  intros H. apply count_occ_not_In. intros Hin. rewrite Forall_forall in H.
  exact (white_not_quote 34 (H 34 Hin) eq_refl).
Qed.

Lemma unquoted_shift l s i : count_occ N.eq_dec l 34 = O -> (unquoted_at (l ++ s) (length l + i) <-> unquoted_at s i).
Proof.
  intros H. unfold unquoted_at. rewrite firstn_app_2, count_occ_app, H. reflexivity.
Qed.

Lemma unquoted_app_l s t i : (i <= length s)%nat -> (unquoted_at (s ++ t) i <-> unquoted_at s i).
Proof.
  intros H. unfold unquoted_at. rewrite firstn_app.
  replace (i - length s)%nat with O by lia. rewrite app_nil_r. reflexivity.
Qed.

Lemma sep_at_shift l s i : sep_at (l ++ s) (length l + i) <-> sep_at s i.
Proof.
  unfold sep_at. rewrite skipn_app. rewrite skipn_all2 by lia.
  replace (length l + i - length l)%nat with i by lia. reflexivity.
Qed.

Lemma sep_at_app_l s t i : sep_at s i -> sep_at (s ++ t) i.
Proof.
  intros H. apply sep_at_chars in H as (A & B & C & D). apply sep_at_chars.
  repeat split; rewrite nth_error_app1; auto; apply nth_error_Some; congruence.
Qed.

Lemma sep_at_app_inv s t i : sep_at (s ++ t) i -> (i + 4 <= length s)%nat -> sep_at s i.
Proof.
  intros H Hl. apply sep_at_chars in H as (A & B & C & D). apply sep_at_chars.
  rewrite nth_error_app1 in A, B, C, D by lia. auto.
Qed.

Lemma sep_at_len s i : sep_at s i -> (i + 4 <= length s)%nat.
Proof.
  intros H. apply sep_at_chars in H as (_ & _ & _ & D).
  assert (i + 3 < length s)%nat by (apply nth_error_Some; congruence). lia.
Qed.

Lemma sep_at_here s t : sep_at (s ++ txt " -- " ++ t) (length s).
Proof.
  unfold sep_at. rewrite skipn_app, skipn_all. rewrite Nat.sub_diag. reflexivity.
Qed.

Lemma nth_after (s t : text) k : nth_error (s ++ t) (length s + k) = nth_error t k.
Proof. rewrite nth_error_app2 by lia. f_equal. lia. Qed.

(** Splitting "boot -- init" at its separator. *)
Lemma splits_sep boot init :
  quotes_balanced boot ->
  (forall j, sep_at boot j -> ~ unquoted_at boot j) ->
  (forall b, boot = b ++ txt " --" -> ~ unquoted_at boot (length b)) ->
  splits_at (boot ++ txt " -- " ++ init) (length boot).
Proof.
  intros Hq Hs He. split; [apply sep_at_here|]. split.
  { apply unquoted_app_l; [lia|]. exact Hq. }
  intros j Hj Hsep Hu. rewrite unquoted_app_l in Hu by lia.
  destruct (Nat.leb_spec (j + 4) (length boot)) as [Hle|Hgt].
  { apply (Hs j); auto. eapply sep_at_app_inv; eassumption. }
  pose proof Hsep as Hc. apply sep_at_chars in Hc as (A & B & C & D).
  assert (forall k, (k < 4)%nat -> nth_error (boot ++ txt " -- " ++ init) (length boot + k) = nth_error (txt " -- ") k) as Hn.
  { intros k Hk. rewrite nth_after, nth_error_app1; [reflexivity|]. change (length (txt " -- ")) with 4%nat. lia. }
  destruct (Nat.eq_dec (j + 3) (length boot)) as [E3|].
  - apply (He (firstn j boot)).
    + rewrite <- (firstn_skipn j boot) at 1. f_equal.
      assert (length (skipn j boot) = 3%nat) as Hl by (rewrite skipn_length; lia).
      rewrite nth_error_app1 in A, B, C by lia.
      rewrite <- (Nat.add_0_r j), <- nth_error_skipn_N in A. rewrite <- nth_error_skipn_N in B, C.
      destruct (skipn j boot) as [|a [|b [|c [|d r]]]]; try discriminate. cbn in A, B, C.
      injection A as ->. injection B as ->. injection C as ->. reflexivity.
    + rewrite firstn_length_le by lia. exact Hu.
  - destruct (Nat.eq_dec (j + 2) (length boot)) as [E2|].
    + pose proof (Hn 0%nat ltac:(lia)) as H0. rewrite Nat.add_0_r, <- E2, C in H0. discriminate.
    + assert (j + 1 = length boot)%nat as E1 by lia.
      pose proof (Hn 0%nat ltac:(lia)) as H0. rewrite Nat.add_0_r, <- E1, B in H0. discriminate.
Qed.

Lemma skipn_past_sep (boot init : text) : skipn (length boot + 4) (boot ++ txt " -- " ++ init) = init.
Proof.
  rewrite skipn_app, skipn_all2 by lia. replace (length boot + 4 - length boot)%nat with 4%nat by lia. reflexivity.
Qed.

Lemma firstn_before (boot t : text) : firstn (length boot) (boot ++ t) = boot.
Proof. rewrite firstn_app, Nat.sub_diag, firstn_all. apply app_nil_r. Qed.

Lemma parsed_parts_sep boot init :
  trimmed_of boot boot -> trimmed_of init init ->
  quotes_balanced boot ->
  (forall j, sep_at boot j -> ~ unquoted_at boot j) ->
  (forall b, boot = b ++ txt " --" -> ~ unquoted_at boot (length b)) ->
  parsed_parts (boot ++ txt " -- " ++ init) boot init.
Proof.
  intros Hb Hi Hq Hs He. left. exists (length boot). split; [now apply splits_sep|].
  rewrite firstn_before, skipn_past_sep. auto.
Qed.

(** ** C12 *)
Lemma dashes_sep boot : dashes_quoted boot ->
  (forall j, sep_at boot j -> ~ unquoted_at boot j) /\
  (forall b, boot = b ++ txt " --" -> ~ unquoted_at boot (length b)).
Proof.
  intros H. split.
  - intros j Hs Hu. pose proof Hs as Hc. apply sep_at_chars in Hc as (A & B & C & _).
    apply (H (S j)).
    + replace (S j) with (j + 1)%nat by lia.
      rewrite <- (Nat.add_0_r (j + 1)), <- nth_error_skipn_N in B.
      replace (j + 2)%nat with (j + 1 + 1)%nat in C by lia. rewrite <- nth_error_skipn_N in C.
      destruct (skipn (j + 1) boot) as [|a [|b r]]; try discriminate. cbn in B, C.
      injection B as ->. injection C as ->. reflexivity.
    + apply (unquoted_step boot j 32 A); [lia|exact Hu].
  - intros b -> Hu. apply (H (S (length b))).
    + rewrite skipn_app. rewrite skipn_all2 by lia.
      replace (S (length b) - length b)%nat with 1%nat by lia. reflexivity.
    + apply (unquoted_step _ (length b) 32); [|lia|exact Hu].
      rewrite <- (Nat.add_0_r (length b)), nth_after. reflexivity.
Qed.

Lemma documented_parts boot init :
  trimmed_of boot boot -> trimmed_of init init -> quotes_balanced boot -> dashes_quoted boot ->
  parsed_parts (boot ++ txt " -- " ++ init) boot init.
Proof.
  intros Hb Hi Hq Hd. destruct (dashes_sep boot Hd). now apply parsed_parts_sep.
Qed.

Lemma try_from_parts raw cap boot init :
  cap < 2 ^ 64 -> lenN (utf8 raw) < 2 ^ 63 -> parsed_parts raw boot init ->
  cmdline_try_from raw cap =
    if (cap =? 0) then Err InvalidCapacity
    else if (lenN (utf8 (full_text boot init)) + 1 <=? cap) then Ok (mkCmdline boot init cap)
    else Err InvalidCapacity.
Proof.
  intros Hc Hl Hp. destruct (try_from_cases raw cap Hc Hl) as (b & i & Hp' & H).
  destruct (parsed_parts_unique raw b i boot init Hp' Hp) as [-> ->]. unfold fits in H.
  destruct (N.eqb_spec cap 0), (N.leb_spec (lenN (utf8 (full_text boot init)) + 1) cap);
    destruct H as [(H1 & H2 & ->)|([H1|H1] & ->)]; try reflexivity; lia.
Qed.

(** ** C13 *)
Lemma trimmed_self_of s t : trimmed_of s t -> trimmed_of t t.
Proof.
  intros H. apply trimmed_iff in H as ->. rewrite <- trim_trim at 2. apply trim_spec.
Qed.

(** Text around the first part of a split raw string. *)
Lemma reparse raw boot init :
  (forall c, In c raw -> white c -> c = 32) ->
  parsed_parts raw boot init ->
  parsed_parts (full_text boot init) boot init.
Proof.
  intros Hw [(i & (Hs & Hu & Hmin) & Hb & Hi)|(Hn & Hb & ->)].
  - pose proof (sep_at_len raw i Hs) as Hlen.
    destruct (trimmed_self_of _ _ Hb) as (lb & rb & Eb & Hb').
    pose proof (trimmed_self_of _ _ Hi) as Hii. pose proof (trimmed_self_of _ _ Hb) as Hbb.
    destruct Hb as (l & r & E & Hl & Hr & _).
    assert (raw = l ++ boot ++ r ++ skipn i raw) as Eraw.
    { rewrite <- (firstn_skipn i raw) at 1. rewrite E, <- !app_assoc. reflexivity. }
    assert (length l + length boot + length r = i)%nat as Elen.
    { apply (f_equal (@length N)) in E. rewrite !app_length, firstn_length_le in E by lia. lia. }
    assert (forall j, sep_at boot j -> ~ unquoted_at boot j) as Hsep.
    { intros j Hj Huj. pose proof (sep_at_len boot j Hj). apply (Hmin (length l + j)%nat); [lia| |].
      - rewrite Eraw, sep_at_shift. now apply sep_at_app_l.
      - rewrite Eraw, unquoted_shift by (apply white_no_quotes; exact Hl).
        apply unquoted_app_l; [lia|exact Huj]. }
    assert (quotes_balanced boot) as Hq.
    { unfold quotes_balanced. unfold unquoted_at in *. rewrite E in Hu.
      rewrite !count_occ_app, (white_no_quotes l Hl), (white_no_quotes r Hr) in Hu.
      rewrite firstn_all. rewrite Nat.add_0_r in Hu. exact Hu. }
    unfold full_text. destruct init as [|c0 init0] eqn:Ei.
    { right. auto. }
    rewrite <- Ei in *. apply parsed_parts_sep; auto.
    intros b Eboot Hub.
    apply (Hmin (length l + length b)%nat).
    + rewrite Eboot in Elen. rewrite app_length in Elen. cbn in Elen. lia.
    + rewrite Eraw, sep_at_shift, Eboot, <- app_assoc.
      apply sep_at_chars.
      rewrite <- (Nat.add_0_r (length b)) at 1. rewrite !nth_after. repeat split.
      change (txt " --" ++ r ++ skipn i raw) with ([32; 45; 45] ++ (r ++ skipn i raw)).
      rewrite nth_error_app2 by (cbn; lia). change (3 - length [32; 45; 45])%nat with 0%nat.
      destruct r as [|c r'].
      * cbn [app]. apply sep_at_chars in Hs as (Hs & _). rewrite <- (Nat.add_0_r i), <- nth_error_skipn_N in Hs. exact Hs.
      * cbn. f_equal. apply Hw; [|inversion Hr; auto].
        rewrite Eraw. apply in_or_app. right. apply in_or_app. right. now left.
    + rewrite Eraw, unquoted_shift by (apply white_no_quotes; exact Hl).
      apply unquoted_app_l; [|exact Hub]. rewrite Eboot, app_length. lia.
  - cbn [full_text]. right. pose proof (trimmed_self_of _ _ Hb) as Hbb. split; [|auto].
    intros j Hj Hu. destruct Hb as (l & r & E & Hl & Hr & _).
    pose proof (sep_at_len boot j Hj).
    apply (Hn (length l + j)%nat); rewrite E.
    + rewrite sep_at_shift. now apply sep_at_app_l.
    + rewrite unquoted_shift by (apply white_no_quotes; exact Hl). apply unquoted_app_l; [lia|exact Hu].
Qed.

Lemma parts_len raw boot init : parsed_parts raw boot init -> lenN (utf8 (full_text boot init)) <= lenN (utf8 raw).
Proof.
  intros H. apply parsed_parts_split in H as (b0 & i0 & E & -> & ->).
  rewrite full_text_len, <- str_len_utf8.
  pose proof (trim_length b0). pose proof (trim_length i0).
  apply split_spec in E as [(i & (Hs & _) & -> & ->)|(_ & -> & ->)].
  - pose proof (f_equal str_len (firstn_skipn i raw)) as H1.
    pose proof (f_equal str_len (firstn_skipn 4 (skipn i raw))) as H2.
    rewrite str_len_app in H1, H2. rewrite skipn_skipn_N in H2. unfold sep_at in Hs. rewrite Hs in H2.
    change (str_len (txt " -- ")) with 4 in H2. destruct (trim (skipn (i + 4) raw)); lia.
  - change (trim []) with (@nil N). cbn. lia.
Qed.

Lemma reparse_ok raw cap c :
  cap < 2 ^ 64 -> lenN (utf8 raw) < 2 ^ 63 -> (forall x, In x raw -> white x -> x = 32) ->
  cmdline_try_from raw cap = Ok c ->
  cmdline_try_from (full_text (boot_args c) (init_args c)) cap = Ok c.
Proof.
  intros Hc Hl Hw E. destruct (try_from_cases raw cap Hc Hl) as (b & i & Hp & [(Hne & Hf & E')|(_ & E')]);
    rewrite E in E'; [|discriminate]. injection E' as ->. cbn [boot_args init_args].
  pose proof (parts_len raw b i Hp).
  rewrite (try_from_parts _ cap b i); [|exact Hc|lia|apply (reparse raw b i Hw Hp)].
  unfold fits in Hf. destruct (N.eqb_spec cap 0); [contradiction|].
  destruct (N.leb_spec (lenN (utf8 (full_text b i)) + 1) cap); [reflexivity|lia].
Qed.

(** ** C14/C15: numerals *)
Lemma digits_head base fuel : 2 <= base -> base <= 16 -> forall n acc,
  n < 2 ^ N.of_nat fuel -> n <> 0 ->
  exists c r, digits base fuel n acc = c :: r /\ c <> 48.
Proof.
  intros H1 H2. induction fuel as [|f IH]; intros n acc Hn H0.
  { change (2 ^ N.of_nat 0) with 1 in Hn. lia. }
  cbn [digits]. destruct (N.eqb_spec (n / base) 0) as [Ez|Ez].
  - exists (digit_char (n mod base)), acc. split; [reflexivity|].
    assert (n mod base = n) as ->.
    { apply N.div_small_iff in Ez; [|lia]. now apply N.mod_small. }
    assert (n < base) by (apply N.div_small_iff in Ez; lia).
    unfold digit_char. destruct (N.ltb_spec n 10); lia.
  - apply IH; [|exact Ez]. apply N.div_lt_upper_bound; [lia|].
    replace (N.of_nat (S f)) with (N.succ (N.of_nat f)) in Hn by lia. rewrite N.pow_succ_r' in Hn.
    set (p := 2 ^ N.of_nat f) in *. clearbody p. nia.
Qed.

Lemma fmt_numeral digit base n :
  2 <= base -> base <= 16 -> (forall d, d < base -> digit (digit_char d) = Some d) ->
  numeral digit base n (digits base (S (N.size_nat n)) n []).
Proof.
  intros H1 H2 Hd. split.
  - rewrite <- (app_nil_r (digits _ _ _ _)). apply fmt_read; auto. discriminate.
  - intros r E. destruct (N.eq_dec n 0) as [->|Hn].
    + cbn [digits] in E. rewrite N.div_0_l in E by lia. change (0 =? 0) with true in E. cbn in E. congruence.
    + destruct (digits_head base (S (N.size_nat n)) H1 H2 n [] (size_nat_bound n) Hn) as (c & r' & E' & Hc).
      congruence.
Qed.

Lemma fmt_dec_numeral n : numeral dec_digit 10 n (fmt_dec n).
Proof. apply fmt_numeral; try lia. exact digit_char_dec. Qed.
Lemma fmt_hex_numeral n : numeral hex_digit 16 n (fmt_hex n).
Proof. apply fmt_numeral; try lia. exact digit_char_hex. Qed.

Lemma size_text_ok size : size_text size (guestusize_to_str size).
Proof.
  unfold size_text, guestusize_to_str. cbv zeta.
  change (1024 * 1024 * 1024) with 1073741824. change (1024 * 1024) with 1048576.
  assert (forall m, m <> 0 -> (m | size) -> size mod m = 0) as Hdiv.
  { intros m Hm H. apply N.mod_divide; assumption. }
  assert (forall (P : N -> Prop) mul' suf', In (mul', suf') suffixes ->
     P 1073741824 -> P 1048576 -> P 1024 -> P 1 -> P mul') as Hall.
  { intros P m s [E|[E|[E|[E|[]]]]]; injection E as <- _; auto. }
  destruct (N.eqb_spec (size mod 1073741824) 0) as [E1|E1].
  { exists 1073741824, (txt "G"), (size / 1073741824), (fmt_dec (size / 1073741824)).
    split; [cbn; auto|]. split; [lia|]. split; [apply fmt_dec_numeral|]. split; [reflexivity|].
    intros m s Hin _. apply (Hall (fun m => m <= 1073741824) m s Hin); lia. }
  destruct (N.eqb_spec (size mod 1048576) 0) as [E2|E2].
  { exists 1048576, (txt "M"), (size / 1048576), (fmt_dec (size / 1048576)).
    split; [cbn; auto|]. split; [lia|]. split; [apply fmt_dec_numeral|]. split; [reflexivity|].
    intros m s Hin. apply (Hall (fun m => (m | size) -> m <= 1048576) m s Hin); try lia.
    intros Hd. apply Hdiv in Hd; lia. }
  destruct (N.eqb_spec (size mod 1024) 0) as [E3|E3].
  { exists 1024, (txt "K"), (size / 1024), (fmt_dec (size / 1024)).
    split; [cbn; auto|]. split; [lia|]. split; [apply fmt_dec_numeral|]. split; [reflexivity|].
    intros m s Hin. apply (Hall (fun m => (m | size) -> m <= 1024) m s Hin); try lia;
    intros Hd; apply Hdiv in Hd; lia. }
  exists 1, [], size, (fmt_dec size).
  split; [cbn; auto|]. split; [lia|]. split; [apply fmt_dec_numeral|]. split; [now rewrite app_nil_r|].
  intros m s Hin. apply (Hall (fun m => (m | size) -> m <= 1) m s Hin); try lia;
    intros Hd; apply Hdiv in Hd; lia.
Qed.

Lemma device_argument_ok size base irq id :
  device_argument size base irq id (txt "virtio_mmio.device=" ++ device_text size base irq id).
Proof.
  exists (guestusize_to_str size), (fmt_hex base), (fmt_dec irq),
    (match id with Some i => txt ":" ++ fmt_dec i | None => [] end).
  split; [apply size_text_ok|]. split; [apply fmt_hex_numeral|]. split; [apply fmt_dec_numeral|].
  split; [|reflexivity]. destruct id as [i|]; [|reflexivity].
  exists (fmt_dec i). split; [apply fmt_dec_numeral|reflexivity].
Qed.

Lemma virtio_spec bld c size base irq id : Inv c ->
  exists t, device_argument size base irq id (txt "virtio_mmio.device=" ++ t) /\
    parse_device t = Some (size, base, irq, id) /\
    let t' := txt "virtio_mmio.device=" ++ t in
  ((size = 0 /\ add_virtio_mmio_device bld c size base irq id = (c, Err MmioSize)) \/
  (size <> 0 /\ ~ fits (add_arg (boot_args c) t') (init_args c) (capacity c) /\
   add_virtio_mmio_device bld c size base irq id = (c, Err TooLarge)) \/
  (size <> 0 /\ fits (add_arg (boot_args c) t') (init_args c) (capacity c) /\
   add_virtio_mmio_device bld c size base irq id =
     (mkCmdline (add_arg (boot_args c) t') (init_args c) (capacity c), Ok tt))).
Proof.
  intros HI. exists (device_text size base irq id). split; [apply device_argument_ok|].
  split; [apply parse_device_text|]. exact (virtio_cases bld c size base irq id HI).
Qed.

(** ** C09: NUL characters *)
Lemma white_zero : ~ white 0.
Proof. unfold white, white_space_chars. cbn [In]. lia. Qed.

Lemma trimmed_in s t x : trimmed_of s t -> ~ white x -> (In x t <-> In x s).
Proof.
  intros (l & r & -> & Hl & Hr & _) Hx. rewrite !in_app_iff. split; [auto|].
  rewrite Forall_forall in Hl, Hr. intros [H|[H|H]]; [exfalso; auto|exact H|exfalso; auto].
Qed.

Lemma parts_nul raw boot init : parsed_parts raw boot init -> (In 0 raw <-> In 0 boot \/ In 0 init).
Proof.
  intros [(i & (Hs & _) & Hb & Hi)|(_ & Hb & ->)].
  - rewrite (trimmed_in _ _ 0 Hb white_zero), (trimmed_in _ _ 0 Hi white_zero).
    rewrite <- (firstn_skipn i raw) at 1. rewrite <- (firstn_skipn 4 (skipn i raw)).
    rewrite skipn_skipn_N, !in_app_iff. unfold sep_at in Hs. rewrite Hs.
    assert (~ In 0 (txt " -- ")) as Hn by (cbn; lia). tauto.
  - rewrite (trimmed_in _ _ 0 Hb white_zero). cbn. tauto.
Qed.

Lemma nul_kept bld os : forall c, Inv c ->
  (In 0 (boot_args (run_ops bld c os)) <-> In 0 (boot_args c)) /\
  (In 0 (init_args (run_ops bld c os)) <-> In 0 (init_args c)).
Proof.
  assert (forall cur t, Forall printable t -> (In 0 (add_arg cur t) <-> In 0 cur)) as Hadd.
  { intros cur t Ht. pose proof (printable_not_zero t Ht) as Hz. destruct cur as [|x r].
    - cbn [add_arg]. cbn [In]. tauto.
    - cbn [add_arg]. rewrite !in_app_iff. assert (~ In 0 (txt " ")) by (cbn; lia). tauto. }
  induction os as [|o os IH]; intros c HIc; [tauto|].
  unfold run_ops in *. cbn [fold_left].
  destruct (run_op_inv bld c o HIc) as [HI' _]. destruct (IH _ HI') as [IH1 IH2].
  rewrite IH1, IH2.
  destruct (run_op_cases bld c o HIc) as [(e & Eo)|[(t & _ & Ht & _ & Eo)|(t & _ & Ht & _ & Eo)]];
    rewrite Eo in *; cbn [fst boot_args init_args] in *; rewrite ?Hadd by exact Ht; tauto.
Qed.

Lemma full_text_nul boot init : In 0 (full_text boot init) <-> In 0 boot \/ In 0 init.
Proof.
  destruct init as [|i r]; cbn [full_text]; [cbn; tauto|].
  rewrite !in_app_iff. assert (~ In 0 (txt " -- ")) by (cbn; lia). tauto.
Qed.

Lemma nul_exact bld k c0 os :
  ctor_typed k -> run_ctor k = Ok c0 ->
  (as_cstring (run_ops bld c0 os) = Err NullTerminator <->
   boot_args (run_ops bld c0 os) <> [] /\ exists raw cap, k = Parse raw cap /\ In 0 raw).
Proof.
  intros Hk E. destruct (ctor_inv _ _ Hk E) as [HI _].
  destruct (as_cstring_errors (run_ops bld c0 os)) as (_ & Hn & _). rewrite Hn.
  rewrite full_text_nul. destruct (nul_kept bld os c0 HI) as [-> ->].
  pose proof (ctor_parts_ok _ _ Hk E) as Hparts.
  destruct k as [cap|raw cap]; cbn in Hparts.
  - destruct Hparts as [-> ->]. cbn. split; [tauto|]. intros (_ & raw & cap' & H & _). discriminate.
  - rewrite <- (parts_nul _ _ _ Hparts). split.
    + intros [H1 H2]. eauto.
    + intros (H1 & raw' & cap' & H & H2). injection H as <- <-. auto.
Qed.

(** ** Canonical text is unique: a number has one numeral, a device one argument. *)
Section numeral_unique.
  Variables (digit : N -> option N) (base : N).
  Hypothesis Hbase : 2 <= base.
  Hypothesis Hlt : forall c d, digit c = Some d -> d < base.
  Hypothesis Hinj : forall c c' d, digit c = Some d -> digit c' = Some d -> c = c'.
  Hypothesis Hzero : digit 48 = Some 0.

  Lemma read_digits_snoc c : forall t n v, read_digits digit base n (t ++ [c]) = (v, []) ->
    exists w d, digit c = Some d /\ read_digits digit base n t = (w, []) /\ v = w * base + d.
  Proof.
    induction t as [|x t IH]; intros n v H; cbn [app read_digits] in *.
    - destruct (digit c) as [d|] eqn:E; [|discriminate]. injection H as <-. eauto.
    - destruct (digit x) as [d|]; [|discriminate]. apply IH in H. exact H.
  Qed.
  Lemma read_digits_pos : forall t n v, 0 < n -> read_digits digit base n t = (v, []) -> 0 < v.
  Proof.
    induction t as [|x t IH]; intros n v Hn H; cbn [read_digits] in H.
    - injection H as <-. exact Hn.
    - destruct (digit x) as [d|]; [|discriminate]. eapply IH; [|exact H]. nia.
  Qed.
  Definition no_zero (t : text) : Prop := forall r, t <> 48 :: r.
  Lemma no_zero_value t v : no_zero t -> t <> [] -> read_digits digit base 0 t = (v, []) -> 0 < v.
  Proof.
    intros Hz Hn H. destruct t as [|c t]; [contradiction|]. cbn [read_digits] in H. destruct (digit c) as [d|] eqn:E; [|discriminate].
    eapply read_digits_pos; [|exact H]. destruct (N.eq_dec d 0) as [->|]; [|lia]. exfalso. apply (Hz t). f_equal. eapply Hinj; eassumption.
  Qed.
  Lemma no_zero_init t c : no_zero (t ++ [c]) -> no_zero t.
  Proof. intros H r ->. now apply (H (r ++ [c])). Qed.
  Lemma no_zero_unique : forall t1 t2 v, no_zero t1 -> no_zero t2 ->
    read_digits digit base 0 t1 = (v, []) -> read_digits digit base 0 t2 = (v, []) -> t1 = t2.
  Proof.
    induction t1 as [|c1 t1 IH] using rev_ind; intros t2 v Z1 Z2 H1 H2.
    - cbn in H1. injection H1 as <-. destruct t2 as [|c t2]; [reflexivity|]. apply no_zero_value in H2; [lia|exact Z2|discriminate].
    - destruct t2 as [|c2 t2 _] using rev_ind.
      + cbn in H2. injection H2 as <-. apply no_zero_value in H1; [lia|exact Z1|]. destruct t1; discriminate.
      + apply read_digits_snoc in H1 as (w1 & d1 & E1 & R1 & Ev1). apply read_digits_snoc in H2 as (w2 & d2 & E2 & R2 & Ev2).
        pose proof (Hlt _ _ E1). pose proof (Hlt _ _ E2).
        assert (w1 = w2 /\ d1 = d2) as [<- <-].
        { assert (w1 = w2) as <-; [|lia]. rewrite (N.div_unique v base w1 d1), (N.div_unique v base w2 d2); lia. }
        f_equal; [eapply IH; eauto using no_zero_init|]. f_equal. eapply Hinj; eassumption.
  Qed.
  Lemma numeral_read v t : numeral digit base v t -> t <> [] /\ read_digits digit base 0 t = (v, []).
  Proof.
    intros [H _]. destruct t as [|c t]; [discriminate|]. split; [discriminate|]. cbn [read_number] in H. destruct (digit c); [|discriminate]. congruence.
  Qed.
  Lemma numeral_unique v t1 t2 : numeral digit base v t1 -> numeral digit base v t2 -> t1 = t2.
  Proof.
    assert (W : forall t, numeral digit base v t -> t = [48] /\ v = 0 \/ no_zero t /\ 0 < v).
    { intros t Ht. destruct (numeral_read _ _ Ht) as [Hn Hr]. destruct Ht as [_ Hz].
      destruct t as [|c t]; [contradiction|]. destruct (N.eq_dec c 48) as [->|Hc].
      - left. rewrite (Hz t eq_refl) in *. split; [reflexivity|]. cbn in Hr. rewrite Hzero in Hr. injection Hr as <-. lia.
      - right. assert (Z : no_zero (c :: t)) by (intros r E; injection E; intros; contradiction).
        split; [exact Z|]. now apply (no_zero_value (c :: t)). }
    intros H1 H2. destruct (W _ H1) as [[-> E1]|[Z1 E1]], (W _ H2) as [[-> E2]|[Z2 E2]]; try lia; [reflexivity|].
    apply numeral_read in H1 as [_ H1]. apply numeral_read in H2 as [_ H2]. eapply no_zero_unique; eassumption.
  Qed.
End numeral_unique.

Lemma dec_unique v t1 t2 : numeral dec_digit 10 v t1 -> numeral dec_digit 10 v t2 -> t1 = t2.
Proof.
  apply numeral_unique; [lia| | |reflexivity].
  - intros c d. unfold dec_digit. destruct (N.leb_spec 48 c), (N.leb_spec c 57); cbn; intros E; try discriminate. injection E as <-. lia.
  - intros c c' d. unfold dec_digit. destruct (N.leb_spec 48 c), (N.leb_spec c 57), (N.leb_spec 48 c'), (N.leb_spec c' 57); cbn; intros E E'; try discriminate.
    injection E as <-. injection E' as E'. lia.
Qed.
Lemma hex_unique v t1 t2 : numeral hex_digit 16 v t1 -> numeral hex_digit 16 v t2 -> t1 = t2.
Proof.
  apply numeral_unique; [lia| | |reflexivity].
  - intros c d. unfold hex_digit. destruct (N.leb_spec 48 c), (N.leb_spec c 57), (N.leb_spec 97 c), (N.leb_spec c 102); cbn; intros E; try discriminate; injection E as <-; lia.
  - intros c c' d. unfold hex_digit.
    destruct (N.leb_spec 48 c), (N.leb_spec c 57), (N.leb_spec 97 c), (N.leb_spec c 102), (N.leb_spec 48 c'), (N.leb_spec c' 57), (N.leb_spec 97 c'), (N.leb_spec c' 102);
      cbn; intros E E'; try discriminate; injection E as <-; injection E' as E'; lia.
Qed.
Lemma size_text_unique n t1 t2 : size_text n t1 -> size_text n t2 -> t1 = t2.
Proof.
  intros (m1 & s1 & v1 & d1 & I1 & E1 & N1 & -> & L1) (m2 & s2 & v2 & d2 & I2 & E2 & N2 & -> & L2).
  assert (m1 = m2) as <-.
  { assert (m2 <= m1) by (apply (L1 _ _ I2); exists v2; lia). assert (m1 <= m2) by (apply (L2 _ _ I1); exists v1; lia). lia. }
  assert (Hm : m1 <> 0). { cbn in I1. destruct I1 as [X|[X|[X|[X|[]]]]]; injection X as <- _; lia. }
  assert (v1 = v2) as <- by nia. f_equal; [eapply dec_unique; eassumption|].
  cbn in I1, I2. destruct I1 as [X|[X|[X|[X|[]]]]]; injection X as <- <-; destruct I2 as [Y|[Y|[Y|[Y|[]]]]]; congruence.
Qed.
Lemma device_argument_unique size base irq id t1 t2 :
  device_argument size base irq id t1 -> device_argument size base irq id t2 -> t1 = t2.
Proof.
  intros (s1 & b1 & i1 & r1 & S1 & B1 & I1 & R1 & ->) (s2 & b2 & i2 & r2 & S2 & B2 & I2 & R2 & ->).
  rewrite (size_text_unique _ _ _ S1 S2), (hex_unique _ _ _ B1 B2), (dec_unique _ _ _ I1 I2).
  assert (r1 = r2) as ->; [|reflexivity]. destruct id as [n|].
  - destruct R1 as (d1 & D1 & ->), R2 as (d2 & D2 & ->). f_equal. eapply dec_unique; eassumption.
  - congruence.
Qed.
