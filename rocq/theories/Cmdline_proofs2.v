(** Proofs about the command line builder, second part: serialisation, parsing, histories. *)
From Verif Require Import Base Base_proofs Text Cmdline SpecCmdline Text_proofs Cmdline_proofs.

(** ** as_cstring *)
Lemma cstring_new_spec t :
  cstring_new (utf8 t) = if in_dec N.eq_dec 0 t then Err NullTerminator else Ok (utf8 t).
Proof.
  unfold cstring_new. destruct (existsb (fun x => n8 x =? 0) (utf8 t)) eqn:E.
  - apply existsb_exists in E as (x & Hin & Hx).
    assert (x = x00) as -> by (apply n8_inj; change (n8 x00) with 0; lia).
    apply utf8_zero in Hin. destruct (in_dec N.eq_dec 0 t); [reflexivity|contradiction].
  - destruct (in_dec N.eq_dec 0 t) as [Hin|]; [|reflexivity]. exfalso.
    apply utf8_zero in Hin.
    assert (existsb (fun x => n8 x =? 0) (utf8 t) = true); [|congruence].
    apply existsb_exists. exists x00. split; [exact Hin|reflexivity].
Qed.

Lemma as_cstring_spec c : as_cstring c = serialised (boot_args c) (init_args c).
Proof.
  unfold as_cstring, serialised. destruct c as [[|b boot] [|i init] cap];
    cbn [boot_args init_args is_empty andb].
  - reflexivity.
  - reflexivity.
  - rewrite cstring_new_spec. reflexivity.
  - rewrite cstring_new_spec. reflexivity.
Qed.

Lemma serialised_ok boot init b : serialised boot init = Ok b ->
  b = utf8 (full_text boot init) /\ ~ In 0 (full_text boot init) /\ (boot = [] -> init = []).
Proof.
  unfold serialised. destruct boot as [|b0 boot], init as [|i0 init].
  - intros H. injection H as <-. repeat split. intros [].
  - discriminate.
  - destruct (in_dec _ _ _); [discriminate|]. intros H. injection H as <-. repeat split; auto; discriminate.
  - destruct (in_dec _ _ _); [discriminate|]. intros H. injection H as <-. repeat split; auto; discriminate.
Qed.

(** ** Constructors *)
Lemma two64_pow : 2 ^ 64 = two64. Proof. reflexivity. Qed.
Lemma two63_pow : 2 ^ 63 = two63. Proof. reflexivity. Qed.

Lemma new_inv cap c : cap < 2 ^ 64 -> cmdline_new cap = Ok c -> Inv c /\ capacity c = cap /\ boot_args c = [] /\ init_args c = [].
Proof.
  rewrite two64_pow. intros Hc H. unfold cmdline_new in H. destruct (N.eqb_spec cap 0); [discriminate|].
  injection H as <-. cbn. repeat split; try assumption. apply fits_len. cbn. lia.
Qed.

Lemma try_from_unfold raw cap boot0 init0 :
  split_cmdline raw = (boot0, init0) -> cap <> 0 ->
  str_len boot0 + str_len init0 + 5 < two64 ->
  cmdline_try_from raw cap =
    if (str_len (trim boot0) + match trim init0 with [] => 0 | _ => 4 + str_len (trim init0) end + 1) <=? cap
    then Ok (mkCmdline (trim boot0) (trim init0) cap) else Err InvalidCapacity.
Proof.
  intros E Hc Hl. unfold cmdline_try_from. destruct (N.eqb_spec cap 0); [contradiction|].
  rewrite E. cbv zeta. pose proof (trim_length boot0). pose proof (trim_length init0).
  rewrite ok_or_checked.
  destruct (N.ltb_spec (str_len (trim boot0) + 1) two64); [|lia]. cbn [obind].
  destruct (trim init0) as [|i r] eqn:Ei.
  - cbn [obind].
    destruct (N.ltb_spec cap (str_len (trim boot0) + 1)),
      (N.leb_spec (str_len (trim boot0) + 0 + 1) cap); try reflexivity; lia.
  - rewrite sep_len. rewrite ok_or_checked.
    destruct (N.ltb_spec (str_len (trim boot0) + 1 + 4) two64); [|lia]. cbn [obind].
    rewrite ok_or_checked.
    destruct (N.ltb_spec (str_len (trim boot0) + 1 + 4 + str_len (i :: r)) two64); [|lia]. cbn [obind].
    destruct (N.ltb_spec cap (str_len (trim boot0) + 1 + 4 + str_len (i :: r))),
      (N.leb_spec (str_len (trim boot0) + (4 + str_len (i :: r)) + 1) cap); try reflexivity; lia.
Qed.

(** ** The separator scan *)
Lemma starts_with_firstn s p : starts_with s p = true <-> firstn (length p) s = p.
Proof.
  revert s. induction p as [|a p IH]; intros s; cbn [starts_with length firstn].
  { destruct s; split; reflexivity. }
  destruct s as [|b s]; [split; discriminate|].
  cbn [starts_with firstn]. rewrite andb_true_iff, N.eqb_eq, IH. split.
  - intros [-> ->]. reflexivity.
  - intros H. injection H as <- H. auto.
Qed.

Lemma quotes_even s i : check_outside_double_quotes (firstn i s) = true <-> unquoted_at s i.
Proof.
  unfold check_outside_double_quotes, unquoted_at, count.
  assert (forall l, length (filter (N.eqb 34) l) = count_occ N.eq_dec l 34) as Hc.
  { induction l as [|x l IH]; [reflexivity|]. cbn [filter count_occ].
    destruct (N.eqb_spec 34 x), (N.eq_dec x 34); subst; try congruence; cbn [length]; congruence. }
  rewrite Hc. set (k := count_occ _ _ _). rewrite Nat.even_spec, N.eqb_eq. split.
  - intros H. exists (Nat.div k 2). lia.
  - intros [q ->]. lia.
Qed.

Lemma sep_at_chars s i : sep_at s i <->
  nth_error s i = Some 32 /\ nth_error s (i + 1) = Some 45 /\ nth_error s (i + 2) = Some 45 /\ nth_error s (i + 3) = Some 32.
Proof.
  unfold sep_at. rewrite <- (Nat.add_0_r i) at 2. rewrite <- !nth_error_skipn_N.
  change (txt " -- ") with [32; 45; 45; 32].
  destruct (skipn i s) as [|a [|b [|c [|d r]]]]; cbn; split; try discriminate;
    try (intros (H1 & H2 & H3 & H4); discriminate).
  - intros H. injection H as -> -> -> ->. auto.
  - intros (H1 & H2 & H3 & H4). congruence.
Qed.

Lemma firstn_S_nth {A} (s : list A) i x : nth_error s i = Some x -> firstn (S i) s = firstn i s ++ [x].
Proof.
  revert s. induction i as [|i IH]; intros [|y s] H; try discriminate.
  - injection H as ->. reflexivity.
  - cbn in H. change (y :: firstn (S i) s = y :: (firstn i s ++ [x])). rewrite (IH s H). reflexivity.
Qed.

Lemma unquoted_step s i x : nth_error s i = Some x -> x <> 34 -> (unquoted_at s (S i) <-> unquoted_at s i).
Proof.
  intros H Hx. unfold unquoted_at. rewrite (firstn_S_nth s i x H), count_occ_app.
  cbn [count_occ]. destruct (N.eq_dec x 34); [contradiction|]. rewrite Nat.add_0_r. reflexivity.
Qed.

(** Overlapping occurrences: only at distance 3, and then with the same quote parity. *)
Lemma sep_overlap s i j :
  sep_at s i -> sep_at s j -> (i <= j)%nat -> (j < i + 4)%nat -> (unquoted_at s j <-> unquoted_at s i).
Proof.
  intros Hi Hj Hle Hlt. apply sep_at_chars in Hi as (A0 & A1 & A2 & A3).
  pose proof Hj as Hj'. apply sep_at_chars in Hj' as (B0 & B1 & _ & _).
  assert (j = i \/ j = i + 1 \/ j = i + 2 \/ j = i + 3)%nat as [ -> | [ -> | [ -> | -> ] ] ] by lia.
  - reflexivity.
  - congruence.
  - congruence.
  - replace (i + 3)%nat with (S (S (S i))) by lia.
    replace (i + 1)%nat with (S i) in A1 by lia. replace (i + 2)%nat with (S (S i)) in A2 by lia.
    rewrite (unquoted_step s (S (S i)) 45), (unquoted_step s (S i) 45), (unquoted_step s i 32);
      [reflexivity|assumption|lia|assumption|lia|assumption|lia].
Qed.

Lemma scan_spec raw : forall s i skip,
  skipn i raw = s ->
  match find (fun i => check_outside_double_quotes (firstn i raw))
             (match_indices_from INIT_ARGS_SEPARATOR s i skip) with
  | Some j => sep_at raw j /\ unquoted_at raw j /\ (i + skip <= j)%nat /\
              forall k, (i + skip <= k)%nat -> (k < j)%nat -> sep_at raw k -> ~ unquoted_at raw k
  | None => forall k, (i + skip <= k)%nat -> sep_at raw k -> ~ unquoted_at raw k
  end.
Proof.
  assert (forall k, sep_at raw k -> (k + 3 < length raw)%nat) as Hlen.
  { intros k Hk. apply sep_at_chars in Hk as (_ & _ & _ & H).
    apply nth_error_Some. congruence. }
  induction s as [|c s IH]; intros i skip E; cbn [match_indices_from].
  - cbn [find]. intros k Hk Hs. exfalso. specialize (Hlen k Hs).
    pose proof (skipn_length i raw) as Hl. rewrite E in Hl. cbn [length] in Hl. lia.
  - assert (skipn (S i) raw = s) as E'.
    { rewrite <- (Nat.add_1_r i), <- skipn_skipn_N, E. reflexivity. }
    destruct skip as [|k0].
    + destruct (starts_with (c :: s) INIT_ARGS_SEPARATOR) eqn:Es.
      * assert (sep_at raw i) as Hsep.
        { unfold sep_at. rewrite E. apply starts_with_firstn in Es. exact Es. }
        cbn [find]. destruct (check_outside_double_quotes (firstn i raw)) eqn:Eq.
        -- apply quotes_even in Eq. repeat split; auto; try lia.
        -- assert (~ unquoted_at raw i) as Hodd by (rewrite <- quotes_even; congruence).
           specialize (IH (S i) (length INIT_ARGS_SEPARATOR - 1)%nat E').
           change (length INIT_ARGS_SEPARATOR - 1)%nat with 3%nat in *.
           destruct (find _ _) as [j|].
           ++ destruct IH as (H1 & H2 & H3 & H4). repeat split; auto; [lia|].
              intros k Hk1 Hk2 Hk3. destruct (Nat.ltb_spec k (i + 4)).
              ** rewrite (sep_overlap raw i k) by (assumption || lia). exact Hodd.
              ** apply H4; auto; lia.
           ++ intros k Hk1 Hk3. destruct (Nat.ltb_spec k (i + 4)).
              ** rewrite (sep_overlap raw i k) by (assumption || lia). exact Hodd.
              ** apply IH; auto; lia.
      * assert (~ sep_at raw i) as Hns.
        { unfold sep_at. rewrite E. intros H.
          assert (starts_with (c :: s) INIT_ARGS_SEPARATOR = true); [|congruence].
          apply starts_with_firstn. exact H. }
        specialize (IH (S i) O E'). destruct (find _ _) as [j|].
        -- destruct IH as (H1 & H2 & H3 & H4). repeat split; auto; [lia|].
           intros k Hk1 Hk2 Hk3. destruct (Nat.eq_dec k i) as [->|]; [contradiction|]. apply H4; auto; lia.
        -- intros k Hk1 Hk3. destruct (Nat.eq_dec k i) as [->|]; [contradiction|]. apply IH; auto; lia.
    + specialize (IH (S i) k0 E'). destruct (find _ _) as [j|].
      * destruct IH as (H1 & H2 & H3 & H4). repeat split; auto; [lia|].
        intros k Hk1 Hk2 Hk3. apply H4; auto; lia.
      * intros k Hk1 Hk3. apply IH; auto; lia.
Qed.

Lemma split_spec raw boot0 init0 :
  split_cmdline raw = (boot0, init0) ->
  (exists i, splits_at raw i /\ boot0 = firstn i raw /\ init0 = skipn (i + 4) raw) \/
  ((forall i, sep_at raw i -> ~ unquoted_at raw i) /\ boot0 = raw /\ init0 = []).
Proof.
  unfold split_cmdline, match_indices. pose proof (scan_spec raw raw O O eq_refl) as H.
  destruct (find _ _) as [i|]; intros E; injection E as <- <-.
  - left. exists i. destruct H as (H1 & H2 & _ & H4). repeat split; auto.
    intros j Hj. apply H4; lia.
  - right. repeat split; auto. intros i. apply H. lia.
Qed.

Lemma splits_unique s i j : splits_at s i -> splits_at s j -> i = j.
Proof.
  intros (A1 & A2 & A3) (B1 & B2 & B3).
  destruct (Nat.lt_trichotomy i j) as [H|[H|H]]; [exfalso|exact H|exfalso].
  - exact (B3 i H A1 A2).
  - exact (A3 j H B1 B2).
Qed.

Lemma split_complete_some raw i : splits_at raw i -> split_cmdline raw = (firstn i raw, skipn (i + 4) raw).
Proof.
  intros Hs. destruct (split_cmdline raw) as [b0 i0] eqn:E.
  apply split_spec in E as [(j & Hj & -> & ->)|(Hn & _)].
  - now rewrite (splits_unique raw i j Hs Hj).
  - exfalso. destruct Hs as (H1 & H2 & _). exact (Hn i H1 H2).
Qed.

Lemma split_complete_none raw :
  (forall i, sep_at raw i -> ~ unquoted_at raw i) -> split_cmdline raw = (raw, []).
Proof.
  intros Hn. destruct (split_cmdline raw) as [b0 i0] eqn:E.
  apply split_spec in E as [(j & (H1 & H2 & _) & _)|(_ & -> & ->)]; [|reflexivity].
  exfalso. exact (Hn j H1 H2).
Qed.

Lemma parsed_parts_split raw boot init :
  parsed_parts raw boot init <->
  exists b0 i0, split_cmdline raw = (b0, i0) /\ boot = trim b0 /\ init = trim i0.
Proof.
  unfold parsed_parts. split.
  - intros [(i & Hs & Hb & Hi)|(Hn & Hb & ->)].
    + exists (firstn i raw), (skipn (i + 4) raw). repeat split; try (now apply trimmed_unique).
      now apply split_complete_some.
    + exists raw, []. repeat split; [now apply split_complete_none|now apply trimmed_unique].
  - intros (b0 & i0 & E & -> & ->). apply split_spec in E as [(i & Hs & -> & ->)|(Hn & -> & ->)].
    + left. exists i. repeat split; try apply Hs; apply trim_spec.
    + right. repeat split; auto. apply trim_spec.
Qed.

Lemma parsed_parts_unique raw b i b' i' :
  parsed_parts raw b i -> parsed_parts raw b' i' -> b = b' /\ i = i'.
Proof.
  rewrite !parsed_parts_split. intros (x & y & E & -> & ->) (x' & y' & E' & -> & ->).
  rewrite E in E'. injection E' as -> ->. auto.
Qed.

Lemma parsed_parts_exist raw : exists b i, parsed_parts raw b i.
Proof.
  destruct (split_cmdline raw) as [x y] eqn:E. exists (trim x), (trim y).
  apply parsed_parts_split. eauto.
Qed.

Lemma split_len raw b0 i0 : split_cmdline raw = (b0, i0) -> str_len b0 + str_len i0 <= str_len raw.
Proof.
  intros E. apply split_spec in E as [(i & _ & -> & ->)|(_ & -> & ->)].
  - pose proof (f_equal str_len (firstn_skipn i raw)) as H1.
    pose proof (f_equal str_len (firstn_skipn 4 (skipn i raw))) as H2.
    rewrite str_len_app in H1, H2. rewrite skipn_skipn_N in H2. lia.
  - cbn. lia.
Qed.

Lemma try_from_cases raw cap : cap < 2 ^ 64 -> lenN (utf8 raw) < 2 ^ 63 ->
  exists boot init, parsed_parts raw boot init /\
  ((cap <> 0 /\ fits boot init cap /\ cmdline_try_from raw cap = Ok (mkCmdline boot init cap)) \/
   ((cap = 0 \/ ~ fits boot init cap) /\ cmdline_try_from raw cap = Err InvalidCapacity)).
Proof.
  intros Hc Hl. rewrite <- str_len_utf8 in Hl.
  destruct (split_cmdline raw) as [b0 i0] eqn:E.
  exists (trim b0), (trim i0). split; [apply parsed_parts_split; eauto|].
  destruct (N.eq_dec cap 0) as [->|Hne]; [right; split; [auto|reflexivity]|].
  pose proof (split_len raw b0 i0 E) as Hs.
  rewrite (try_from_unfold raw cap b0 i0 E Hne).
  2:{ change (2 ^ 63) with two63 in Hl. unfold two63, two64 in *. lia. }
  rewrite (fits_len (trim b0)).
  destruct (N.leb_spec (str_len (trim b0) + match trim i0 with [] => 0 | _ => 4 + str_len (trim i0) end + 1) cap).
  - left. auto.
  - right. split; [right; lia|reflexivity].
Qed.

Lemma ctor_inv k c : ctor_typed k -> run_ctor k = Ok c -> Inv c /\ capacity c = ctor_cap k.
Proof.
  destruct k as [cap|raw cap]; cbn [ctor_typed run_ctor ctor_cap].
  - intros H E. destruct (new_inv cap c H E) as (A & B & _). auto.
  - intros [H1 H2] E. destruct (try_from_cases raw cap H1 H2) as (b & i & _ & [(_ & Hf & E')|(_ & E')]);
      rewrite E in E'; [|discriminate]. injection E' as ->. cbn. repeat split; auto.
Qed.

Lemma reachable_inv bld c : reachable bld c -> Inv c.
Proof.
  intros (k & c0 & os & Hk & E & ->). destruct (ctor_inv k c0 Hk E) as [HI _].
  apply run_ops_inv, HI.
Qed.

(** ** C01 *)
Lemma capacity_respected bld k c0 os b :
  ctor_typed k -> run_ctor k = Ok c0 -> cmdline_to_vec (run_ops bld c0 os) = Ok b ->
  lenN b <= ctor_cap k.
Proof.
  intros Hk E H. destruct (ctor_inv k c0 Hk E) as [HI Hcap].
  destruct (run_ops_inv bld os c0 HI) as [[Hf _] Hcap'].
  unfold cmdline_to_vec in H. rewrite as_cstring_spec in H.
  destruct (serialised _ _) as [b'| |] eqn:Es; try discriminate. injection H as <-.
  apply serialised_ok in Es as (-> & _). unfold bytes_with_nul. rewrite lenN_app.
  change (lenN [x00]) with 1. unfold fits in Hf. lia.
Qed.

(** ** C02 *)
Lemma ctry_err {A} c (x : outcome cerror A) k c' e :
  ctry c x k = (c', Err e) -> c' = c \/ exists a, x = Ok a /\ k a = (c', Err e).
Proof. destruct x; cbn; intros H; [right; eauto|left; congruence|discriminate]. Qed.

Lemma insert_str_err bld c s c' e : insert_str bld c s = (c', Err e) -> c' = c.
Proof.
  unfold insert_str. cbv zeta. intros H.
  repeat (apply ctry_err in H as [H|(? & _ & H)]; [exact H|]).
  destruct (_ <? _); congruence.
Qed.

Lemma insert_init_err bld c s c' e : insert_init_args bld c s = (c', Err e) -> c' = c.
Proof.
  unfold insert_init_args. cbv zeta. intros H.
  repeat (apply ctry_err in H as [H|(? & _ & H)]; [exact H|]).
  destruct (_ <? _); congruence.
Qed.

Lemma rejected_unchanged bld c o c' e : run_op bld c o = (c', Err e) -> c' = c.
Proof.
  destruct o as [k v|k vs|s|s|size base irq id]; cbn [run_op]; intros H.
  - unfold insert in H.
    do 2 (apply ctry_err in H as [H|(? & _ & H)]; [exact H|]).
    eapply insert_str_err; exact H.
  - unfold insert_multiple in H.
    apply ctry_err in H as [H|(? & _ & H)]; [exact H|].
    destruct vs; [congruence|].
    apply ctry_err in H as [H|(? & _ & H)]; [exact H|].
    eapply insert_str_err; exact H.
  - eapply insert_str_err; exact H.
  - eapply insert_init_err; exact H.
  - unfold add_virtio_mmio_device in H. destruct (size =? 0); [congruence|].
    eapply insert_str_err; exact H.
Qed.

(** ** C03 *)
Lemma accepted_run bld c os bs is c' : accepted bld c os bs is c' -> run_ops bld c os = c'.
Proof.
  unfold run_ops. induction 1 as [c|c o os bs is c1 e c' E _ IH|c o os t bs is c1 c' E _ _ IH|c o os t bs is c1 c' E _ _ IH];
    cbn [fold_left]; [reflexivity|rewrite E; exact IH|rewrite E; exact IH|rewrite E; exact IH].
Qed.

Lemma accepted_exists bld os : forall c, Inv c -> exists bs is, accepted bld c os bs is (run_ops bld c os).
Proof.
  induction os as [|o os IH]; intros c HI; [exists [], []; constructor|].
  unfold run_ops in *. cbn [fold_left].
  destruct (run_op_inv bld c o HI) as [HI' _].
  destruct (IH _ HI') as (bs & is & Hacc).
  destruct (run_op_cases bld c o HI) as [(e & E)|[(t & Hb & _ & _ & E)|(t & Hb & _ & _ & E)]];
    rewrite E in *; cbn [fst] in *.
  - exists bs, is. eapply acc_rejected; eassumption.
  - exists (t :: bs), is. eapply acc_boot; eassumption.
  - exists bs, (t :: is). eapply acc_init; eassumption.
Qed.

Lemma args_text_nil_cons l : args_text ([] :: l) = args_text l.
Proof. reflexivity. Qed.

Lemma spaced_app_last l x : l <> [] -> spaced (l ++ [x]) = spaced l ++ txt " " ++ x.
Proof.
  induction l as [|y [|z l] IH]; intros Hne; [contradiction|reflexivity|].
  change (y ++ txt " " ++ spaced ((z :: l) ++ [x]) = (y ++ txt " " ++ spaced (z :: l)) ++ txt " " ++ x).
  rewrite IH by discriminate. rewrite <- !app_assoc. reflexivity.
Qed.

Lemma args_text_fold l cur : fold_left add_arg l cur = args_text (cur :: l).
Proof.
  revert cur. induction l as [|x l IH]; intros cur.
  - cbn [fold_left]. destruct cur; reflexivity.
  - cbn [fold_left]. rewrite IH. destruct cur as [|c r]; [reflexivity|].
    unfold args_text. cbn [add_arg]. cbn [app drop_blank].
    destruct l as [|y l]; [reflexivity|].
    change (spaced (((c :: r) ++ txt " " ++ x) :: y :: l) = spaced ((c :: r) :: x :: y :: l)).
    cbn [spaced]. rewrite <- !app_assoc. reflexivity.
Qed.

(** boot_arg and init_arg texts are determined up to the virtio grammar; the accepted history fixes
    the state when the texts are the ones actually added. *)
Lemma history_exists bld os : forall c, Inv c -> exists bs is,
  accepted bld c os bs is (run_ops bld c os) /\
  boot_args (run_ops bld c os) = args_text (boot_args c :: bs) /\
  init_args (run_ops bld c os) = args_text (init_args c :: is).
Proof.
  induction os as [|o os IH]; intros c HI.
  - exists [], []. split; [constructor|]. rewrite <- !args_text_fold. auto.
  - unfold run_ops in *. cbn [fold_left].
    destruct (run_op_inv bld c o HI) as [HI' _].
    destruct (IH _ HI') as (bs & is & Hacc & Hb & Hi).
    destruct (run_op_cases bld c o HI) as [(e & E)|[(t & Ht & _ & _ & E)|(t & Ht & _ & _ & E)]];
      rewrite E in *; cbn [fst] in *.
    + exists bs, is. split; [eapply acc_rejected; eassumption|auto].
    + exists (t :: bs), is. split; [eapply acc_boot; eassumption|]. split; [|exact Hi].
      rewrite Hb. cbn [boot_args]. rewrite <- !args_text_fold. reflexivity.
    + exists bs, (t :: is). split; [eapply acc_init; eassumption|]. split; [exact Hb|].
      rewrite Hi. cbn [init_args]. rewrite <- !args_text_fold. reflexivity.
Qed.

Lemma ctor_parts_ok k c : ctor_typed k -> run_ctor k = Ok c -> ctor_parts k (boot_args c) (init_args c).
Proof.
  destruct k as [cap|raw cap]; cbn [ctor_typed run_ctor ctor_parts].
  - intros H E. destruct (new_inv cap c H E) as (_ & _ & A & B). auto.
  - intros [H1 H2] E. destruct (try_from_cases raw cap H1 H2) as (b & i & Hp & [(_ & _ & E')|(_ & E')]);
      rewrite E in E'; [|discriminate]. injection E' as ->. exact Hp.
Qed.

Lemma concatenation bld k c0 os :
  ctor_typed k -> run_ctor k = Ok c0 ->
  exists boot0 init0 bs is,
    ctor_parts k boot0 init0 /\
    accepted bld c0 os bs is (run_ops bld c0 os) /\
    as_cstring (run_ops bld c0 os) = serialised (args_text (boot0 :: bs)) (args_text (init0 :: is)).
Proof.
  intros Hk E. destruct (ctor_inv k c0 Hk E) as [HI _].
  destruct (history_exists bld os c0 HI) as (bs & is & Hacc & Hb & Hi).
  exists (boot_args c0), (init_args c0), bs, is. split; [now apply ctor_parts_ok|].
  split; [exact Hacc|]. rewrite as_cstring_spec, Hb, Hi. reflexivity.
Qed.

(** ** C07 *)
Lemma printable_history bld os : forall c, Inv c ->
  Forall printable (boot_args c) -> Forall printable (init_args c) ->
  Forall printable (boot_args (run_ops bld c os)) /\ Forall printable (init_args (run_ops bld c os)).
Proof.
  assert (forall cur t, Forall printable cur -> Forall printable t -> Forall printable (add_arg cur t)) as Hadd.
  { intros cur t Hc Ht. destruct cur as [|x r]; [exact Ht|]. cbn [add_arg].
    apply Forall_app. split; [exact Hc|]. apply Forall_app. split; [|exact Ht].
    constructor; [|constructor]. unfold printable. cbn. lia. }
  induction os as [|o os IH]; intros c HI Hb Hi; [auto|].
  unfold run_ops in *. cbn [fold_left].
  destruct (run_op_inv bld c o HI) as [HI' _].
  apply IH; [exact HI'| |];
  destruct (run_op_cases bld c o HI) as [(e & E)|[(t & _ & Ht & _ & E)|(t & _ & Ht & _ & E)]];
    rewrite E; cbn; auto.
Qed.

Lemma printable_full boot init : Forall printable boot -> Forall printable init -> Forall printable (full_text boot init).
Proof.
  intros Hb Hi. unfold full_text. destruct init as [|i r]; [exact Hb|].
  apply Forall_app. split; [exact Hb|]. apply Forall_app. split; [|exact Hi].
  repeat constructor; unfold printable; cbn; lia.
Qed.

Lemma printable_not_zero t : Forall printable t -> ~ In 0 t.
Proof. intros H Hin. rewrite Forall_forall in H. specialize (H 0 Hin). unfold printable in H. lia. Qed.

Lemma new_printable bld cap c0 os :
  cap < 2 ^ 64 -> cmdline_new cap = Ok c0 ->
  as_cstring (run_ops bld c0 os) <> Err NullTerminator /\
  (forall b, as_cstring (run_ops bld c0 os) = Ok b -> Forall (fun x => 32 <= n8 x /\ n8 x <= 126) b).
Proof.
  intros Hc E. destruct (new_inv cap c0 Hc E) as (HI & _ & Hb0 & Hi0).
  destruct (printable_history bld os c0 HI) as [Hb Hi]; [rewrite Hb0; constructor|rewrite Hi0; constructor|].
  rewrite as_cstring_spec. set (c := run_ops bld c0 os) in *.
  pose proof (printable_full _ _ Hb Hi) as Hp. pose proof (printable_not_zero _ Hp) as Hz.
  split.
  - unfold serialised. destruct (boot_args c), (init_args c); try discriminate;
      destruct (in_dec _ _ _); try discriminate; contradiction.
  - intros b Es. apply serialised_ok in Es as (-> & _). rewrite utf8_printable by exact Hp.
    rewrite Forall_map. eapply Forall_impl; [|exact Hp]. intros x Hx. unfold printable in Hx.
    rewrite n8_b8_small by lia. exact Hx.
Qed.

(** ** C08 *)
Lemma one_nul c v : cmdline_to_vec c = Ok v -> exists b, v = b ++ [x00] /\ ~ In x00 b.
Proof.
  unfold cmdline_to_vec. rewrite as_cstring_spec. destruct (serialised _ _) as [b| |] eqn:E; try discriminate.
  intros H. injection H as <-. apply serialised_ok in E as (-> & Hz & _).
  eexists. split; [reflexivity|]. rewrite utf8_zero. exact Hz.
Qed.

(** ** C09 *)
Lemma as_cstring_errors c :
  (as_cstring c = Err NoBootArgsInserted <-> boot_args c = [] /\ init_args c <> []) /\
  (as_cstring c = Err NullTerminator <-> boot_args c <> [] /\ In 0 (full_text (boot_args c) (init_args c))) /\
  (as_cstring c = Err NoBootArgsInserted \/ as_cstring c = Err NullTerminator \/
   exists b, as_cstring c = Ok b).
Proof.
  rewrite as_cstring_spec. destruct c as [[|b boot] [|i init] cap]; cbn [boot_args init_args serialised].
  - repeat split; try discriminate; eauto; try tauto; intros [? ?]; congruence.
  - repeat split; try discriminate; eauto; try tauto; intros [? ?]; congruence.
  - destruct (in_dec _ _ _) as [H|H]; repeat split; try discriminate; eauto; try tauto; intros [? ?]; congruence || contradiction.
  - destruct (in_dec _ _ _) as [H|H]; repeat split; try discriminate; eauto; try tauto; intros [? ?]; congruence || contradiction.
Qed.

(** A NUL can only come from the parsed text. *)
Lemma nul_from_parse bld k c0 os :
  ctor_typed k -> run_ctor k = Ok c0 ->
  as_cstring (run_ops bld c0 os) = Err NullTerminator ->
  exists raw cap, k = Parse raw cap /\ In 0 raw.
Proof.
  intros Hk E H. destruct k as [cap|raw cap].
  { exfalso. destruct (new_printable bld cap c0 os Hk E) as [Hn _]. contradiction. }
  exists raw, cap. split; [reflexivity|].
  destruct (ctor_inv _ _ Hk E) as [HI _].
  pose proof (ctor_parts_ok _ _ Hk E) as Hparts. cbn in Hparts.
  assert (forall x, In x (boot_args c0) \/ In x (init_args c0) -> In x raw) as Hin.
  { intros x Hx. apply parsed_parts_split in Hparts as (b0 & i0 & Es & Hb & Hi).
    apply split_spec in Es as [(i & _ & -> & ->)|(_ & -> & ->)].
    - destruct Hx as [Hx|Hx].
      + rewrite Hb in Hx. apply trim_incl in Hx. rewrite <- (firstn_skipn i raw). apply in_or_app. now left.
      + rewrite Hi in Hx. apply trim_incl in Hx. rewrite <- (firstn_skipn (i + 4) raw). apply in_or_app. now right.
    - destruct Hx as [Hx|Hx].
      + rewrite Hb in Hx. now apply trim_incl in Hx.
      + rewrite Hi in Hx. destruct Hx. }
  assert (forall os c, Inv c ->
    (In 0 (boot_args (run_ops bld c os)) -> In 0 (boot_args c)) /\
    (In 0 (init_args (run_ops bld c os)) -> In 0 (init_args c))) as Hpres.
  { assert (forall cur t, Forall printable t -> In 0 (add_arg cur t) -> In 0 cur) as Hadd.
    { intros cur t Ht Hz. destruct cur as [|x r].
      - exfalso. eapply printable_not_zero; eassumption.
      - cbn [add_arg] in Hz. apply in_app_or in Hz as [Hz|Hz]; [exact Hz|].
        apply in_app_or in Hz as [Hz|Hz]; [cbn in Hz; lia|].
        exfalso. eapply printable_not_zero; eassumption. }
    induction os0 as [|o os0 IH]; intros c HIc; [auto|].
    unfold run_ops in *. cbn [fold_left].
    destruct (run_op_inv bld c o HIc) as [HI' _]. destruct (IH _ HI') as [IH1 IH2].
    destruct (run_op_cases bld c o HIc) as [(e & Eo)|[(t & _ & Ht & _ & Eo)|(t & _ & Ht & _ & Eo)]];
      rewrite Eo in *; cbn [fst boot_args init_args] in *; split; intros Hz; eauto. }
  destruct (Hpres os c0 HI) as [P1 P2].
  destruct (as_cstring_errors (run_ops bld c0 os)) as (_ & Hn & _). apply Hn in H as [_ H].
  unfold full_text in H. destruct (init_args (run_ops bld c0 os)) as [|i r] eqn:Ei.
  - apply Hin. left. auto.
  - apply in_app_or in H as [H|H]; [apply Hin; auto|].
    apply in_app_or in H as [H|H]; [cbn in H; lia|]. apply Hin. auto.
Qed.

(** ** C16 *)
Lemma no_panic_same bld bld' c o : Inv c ->
  run_op bld c o = run_op bld' c o /\ forall p, snd (run_op bld c o) <> Panic p.
Proof.
  intros HI. split.
  - assert (repr_size bld c = repr_size bld' c) as E by (rewrite !repr_size_ok by exact HI; reflexivity).
    assert (forall s, insert_str bld c s = insert_str bld' c s) as Es.
    { intros s. unfold insert_str. cbv zeta. rewrite E. reflexivity. }
    destruct o as [k v|k vs|s|s|size base irq id]; cbn [run_op].
    + unfold insert. rewrite Es. reflexivity.
    + unfold insert_multiple. destruct (valid_key k); cbn [ctry]; [|reflexivity|reflexivity].
      destruct vs; [reflexivity|]. destruct (collect_values _); cbn [ctry]; auto.
    + apply Es.
    + unfold insert_init_args. cbv zeta. rewrite E. reflexivity.
    + unfold add_virtio_mmio_device. rewrite !Es. reflexivity.
  - intros p. destruct (run_op_cases bld c o HI) as [(e & E)|[(t & _ & _ & _ & E)|(t & _ & _ & _ & E)]];
      rewrite E; discriminate.
Qed.

(** ** C17 *)
Lemma text_eqb_iff a b : text_eqb a b = true <-> a = b.
Proof. unfold text_eqb. destruct (list_eq_dec N.eq_dec a b); split; congruence. Qed.
Lemma bytes_eqb_iff a b : bytes_eqb a b = true <-> a = b.
Proof. unfold bytes_eqb. destruct (list_eq_dec Byte.byte_eq_dec a b); split; congruence. Qed.
Lemma cerror_eqb_iff a b : cerror_eqb a b = true <-> a = b.
Proof.
  destruct a as [| | | | | |k| | | |], b as [| | | | | |k'| | | |]; cbn;
    try (split; congruence). rewrite text_eqb_iff. split; congruence.
Qed.

Lemma serialised_no_panic b i p : serialised b i <> Panic p.
Proof.
  unfold serialised. destruct b, i; try discriminate; destruct (in_dec _ _ _); discriminate.
Qed.

Lemma cmdline_eq_iff a b : cmdline_eq a b = true <-> as_cstring a = as_cstring b.
Proof.
  unfold cmdline_eq. rewrite !as_cstring_spec.
  destruct (serialised (boot_args a) (init_args a)) as [x|e|p] eqn:Ea;
    [| |exfalso; eapply serialised_no_panic; exact Ea];
  destruct (serialised (boot_args b) (init_args b)) as [y|e'|p'] eqn:Eb;
    try (exfalso; eapply serialised_no_panic; exact Eb); try (split; congruence).
  - rewrite bytes_eqb_iff. split; congruence.
  - rewrite cerror_eqb_iff. split; congruence.
Qed.
