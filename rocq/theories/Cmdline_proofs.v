(** Proofs about the command line builder. *)
From Verif Require Import Base Base_proofs Text Cmdline SpecCmdline Text_proofs.

Lemma forallb_printable s : forallb valid_char s = true <-> Forall printable s.
Proof.
  rewrite forallb_forall, Forall_forall. unfold valid_char, printable.
  split; intros H x Hx; specialize (H x Hx); lia.
Qed.

Lemma contains_iff s c : contains s c = true <-> In c s.
Proof.
  unfold contains. rewrite existsb_exists. split.
  - intros (x & Hin & E). apply N.eqb_eq in E. now subst.
  - intros H. exists c. split; [exact H|apply N.eqb_refl].
Qed.

Lemma utf8_sep : lenN (utf8 (txt " -- ")) = 4.
Proof. reflexivity. Qed.
Lemma sep_len : str_len INIT_ARGS_SEPARATOR = 4.
Proof. reflexivity. Qed.

(** The invariant of reachable builders. *)
Definition Inv (c : cmdline) : Prop :=
  fits (boot_args c) (init_args c) (capacity c) /\ capacity c < two64.

Lemma full_text_len boot init :
  lenN (utf8 (full_text boot init)) =
  str_len boot + match init with [] => 0 | _ => 4 + str_len init end.
Proof.
  unfold full_text. destruct init as [|c r].
  - rewrite str_len_utf8. lia.
  - rewrite !utf8_app, !lenN_app, utf8_sep, !str_len_utf8. lia.
Qed.

Lemma fits_len boot init cap :
  fits boot init cap <-> str_len boot + match init with [] => 0 | _ => 4 + str_len init end + 1 <= cap.
Proof. unfold fits. now rewrite full_text_len. Qed.

Lemma fits_with_sep_len boot init cap :
  fits_with_sep boot init cap <-> str_len boot + 4 + str_len init + 1 <= cap.
Proof.
  unfold fits_with_sep. rewrite !utf8_app, !lenN_app, utf8_sep, <- !str_len_utf8. lia.
Qed.

Lemma repr_size_ok bld c : Inv c ->
  repr_size bld c = Ok (str_len (boot_args c) + match init_args c with [] => 0 | _ => 4 + str_len (init_args c) end + 1).
Proof.
  intros [Hf Hc]. apply fits_len in Hf. unfold repr_size.
  destruct (init_args c) as [|x r].
  - rewrite uadd_ok by lia. cbn [obind]. f_equal. lia.
  - rewrite sep_len. rewrite (uadd_ok bld (str_len (boot_args c)) 1) by lia. cbn [obind].
    rewrite (uadd_ok bld 4) by lia. cbn [obind]. rewrite uadd_ok by lia. f_equal. lia.
Qed.

Lemma is_empty_true s : is_empty s = true <-> s = [].
Proof. destruct s; cbn; split; congruence. Qed.

Lemma add_arg_len cur t :
  str_len (add_arg cur t) = str_len cur + (match cur with [] => 0 | _ => 1 end) + str_len t.
Proof.
  destruct cur as [|c r]; cbn [add_arg]; [cbn; lia|].
  rewrite !str_len_app. change (str_len (txt " ")) with 1. lia.
Qed.

Lemma ok_or_checked a b (e : cerror) :
  ok_or (checked_add a b) e = if a + b <? two64 then Ok (a + b) else Err e.
Proof. unfold checked_add. destruct (a + b <? two64); reflexivity. Qed.

Lemma insert_str_cases bld c s : Inv c ->
  let t := trim s in
  (~ Forall printable t /\ insert_str bld c s = (c, Err InvalidAscii)) \/
  (Forall printable t /\ ~ fits (add_arg (boot_args c) t) (init_args c) (capacity c) /\
   insert_str bld c s = (c, Err TooLarge)) \/
  (Forall printable t /\ fits (add_arg (boot_args c) t) (init_args c) (capacity c) /\
   insert_str bld c s = (mkCmdline (add_arg (boot_args c) t) (init_args c) (capacity c), Ok tt)).
Proof.
  intros HI. cbv zeta. pose proof HI as [Hf Hc]. set (t := trim s).
  unfold insert_str. fold t. unfold valid_str.
  destruct (forallb valid_char t) eqn:Ev.
  2:{ left. split; [|reflexivity]. rewrite <- forallb_printable. congruence. }
  apply forallb_printable in Ev. right.
  cbn [ctry]. rewrite (repr_size_ok bld c HI). cbn [ctry].
  apply fits_len in Hf.
  rewrite (fits_len (add_arg (boot_args c) t)), add_arg_len.
  set (i := match init_args c with [] => 0 | _ => 4 + str_len (init_args c) end) in *.
  destruct c as [boot init cap]; cbn [boot_args init_args capacity] in *.
  destruct boot as [|b0 boot]; cbn [is_empty].
  - cbn [ctry]. rewrite ok_or_checked.
    destruct (N.ltb_spec (str_len [] + i + 1 + str_len t) two64) as [H1|H1]; cbn [ctry].
    + destruct (N.ltb_spec cap (str_len [] + i + 1 + str_len t)).
      * left. repeat split; auto. cbn in *. lia.
      * right. repeat split; auto. cbn in *. lia.
    + left. repeat split; auto. cbn in *. lia.
  - rewrite ok_or_checked.
    set (n := str_len (b0 :: boot)) in *.
    destruct (N.ltb_spec (n + i + 1 + 1) two64); cbn [ctry].
    2:{ left. repeat split; auto. lia. }
    rewrite ok_or_checked.
    destruct (N.ltb_spec (n + i + 1 + 1 + str_len t) two64); cbn [ctry].
    2:{ left. repeat split; auto. lia. }
    destruct (N.ltb_spec cap (n + i + 1 + 1 + str_len t)).
    + left. repeat split; auto. lia.
    + right. repeat split; auto; [lia|].
      unfold push_boot. cbn [boot_args init_args capacity]. rewrite <- app_assoc. reflexivity.
Qed.

Lemma insert_init_cases bld c s : Inv c ->
  let t := trim s in
  (~ Forall printable t /\ insert_init_args bld c s = (c, Err InvalidAscii)) \/
  (Forall printable t /\ ~ fits_with_sep (boot_args c) (add_arg (init_args c) t) (capacity c) /\
   insert_init_args bld c s = (c, Err TooLarge)) \/
  (Forall printable t /\ fits_with_sep (boot_args c) (add_arg (init_args c) t) (capacity c) /\
   insert_init_args bld c s = (mkCmdline (boot_args c) (add_arg (init_args c) t) (capacity c), Ok tt)).
Proof.
  intros HI. cbv zeta. pose proof HI as [Hf Hc]. set (t := trim s).
  unfold insert_init_args. fold t. unfold valid_str.
  destruct (forallb valid_char t) eqn:Ev.
  2:{ left. split; [|reflexivity]. rewrite <- forallb_printable. congruence. }
  apply forallb_printable in Ev. right.
  cbn [ctry]. rewrite (repr_size_ok bld c HI). cbn [ctry].
  apply fits_len in Hf.
  rewrite fits_with_sep_len, add_arg_len.
  destruct c as [boot init cap]; cbn [boot_args init_args capacity] in *.
  destruct init as [|b0 init]; cbn [is_empty].
  - rewrite sep_len, ok_or_checked.
    destruct (N.ltb_spec (str_len boot + 0 + 1 + 4) two64) as [H1|H1]; cbn [ctry].
    2:{ left. repeat split; auto. cbn in *. lia. }
    rewrite ok_or_checked.
    destruct (N.ltb_spec (str_len boot + 0 + 1 + 4 + str_len t) two64) as [H2|H2]; cbn [ctry].
    2:{ left. repeat split; auto. cbn in *. lia. }
    destruct (N.ltb_spec cap (str_len boot + 0 + 1 + 4 + str_len t)).
    + left. repeat split; auto. cbn in *. lia.
    + right. repeat split; auto. cbn in *. lia.
  - rewrite ok_or_checked.
    set (n := str_len (b0 :: init)) in *.
    destruct (N.ltb_spec (str_len boot + (4 + n) + 1 + 1) two64); cbn [ctry].
    2:{ left. repeat split; auto. lia. }
    rewrite ok_or_checked.
    destruct (N.ltb_spec (str_len boot + (4 + n) + 1 + 1 + str_len t) two64); cbn [ctry].
    2:{ left. repeat split; auto. lia. }
    destruct (N.ltb_spec cap (str_len boot + (4 + n) + 1 + 1 + str_len t)).
    + left. repeat split; auto. lia.
    + right. repeat split; auto; [lia|].
      unfold push_init. cbn [boot_args init_args capacity]. rewrite <- app_assoc. reflexivity.
Qed.

Lemma fits_with_sep_fits boot init cap : fits_with_sep boot init cap -> fits boot init cap.
Proof. rewrite fits_with_sep_len, fits_len. destruct init; lia. Qed.

(** ** keys and values *)
Lemma valid_key_cases k :
  (good_key k /\ valid_key k = Ok tt) \/ (exists e, key_error k e /\ valid_key k = Err e).
Proof.
  unfold valid_key, good_key.
  destruct (forallb valid_char k) eqn:E1; cbn [negb].
  2:{ right. exists InvalidAscii. split; [|reflexivity]. constructor.
      rewrite <- forallb_printable. congruence. }
  apply forallb_printable in E1.
  destruct (contains k 32) eqn:E2.
  { right. exists HasSpace. split; [|reflexivity]. apply contains_iff in E2. now constructor. }
  assert (~ In 32 k) as N2 by (rewrite <- contains_iff; congruence).
  destruct (contains k 61) eqn:E3.
  { right. exists HasEquals. split; [|reflexivity]. apply contains_iff in E3. now constructor. }
  assert (~ In 61 k) as N3 by (rewrite <- contains_iff; congruence).
  left. auto.
Qed.

Lemma key_error_not_good k e : key_error k e -> ~ good_key k.
Proof. intros H (A & B & C). destruct H; contradiction. Qed.
Lemma key_error_unique k e e' : key_error k e -> key_error k e' -> e = e'.
Proof. intros H H'. destruct H, H'; congruence || contradiction. Qed.

Lemma contains_double_quotes_iff v : Forall printable v ->
  (contains_double_quotes v = true <-> inner_quote v).
Proof.
  intros Hp. unfold contains_double_quotes, inner_quote. rewrite str_len_printable by exact Hp.
  destruct (N.ltb_spec (lenN v) 3) as [Hl|Hl].
  - split; [discriminate|]. intros (a & x & b & y & ->).
    rewrite !lenN_app, !lenN_cons in Hl. rewrite lenN_nil in Hl. lia.
  - rewrite existsb_exists. split.
    + intros (q & Hin & Eq). apply N.eqb_eq in Eq. subst q.
      destruct v as [|a v]; [rewrite lenN_nil in Hl; lia|]. cbn [skipn] in Hin.
      rewrite lenN_cons in Hin, Hl.
      apply in_split in Hin as (l1 & l2 & E).
      (* firstn (len v - 1) v = l1 ++ 34 :: l2, and v has one more element *)
      pose proof (firstn_skipn (N.to_nat (1 + lenN v - 2)) v) as Hv.
      pose proof (lenN_skipn v (1 + lenN v - 2)) as Hsl.
      destruct (skipn (N.to_nat (1 + lenN v - 2)) v) as [|b y] eqn:Es.
      * rewrite lenN_nil in Hsl. lia.
      * rewrite E in Hv. destruct l2 as [|b' y'].
        -- exists a, l1, b, y. rewrite <- Hv. cbn [app]. rewrite <- app_assoc. reflexivity.
        -- exists a, l1, b', (y' ++ b :: y). rewrite <- Hv. cbn [app]. rewrite <- app_assoc. reflexivity.
    + intros (a & x & b & y & ->). exists 34. split; [|apply N.eqb_refl].
      cbn [app skipn].
      rewrite lenN_cons, lenN_app, lenN_cons, lenN_cons.
      destruct (y) as [|c y'].
      * replace (N.to_nat _) with (length (x ++ [34])).
        2:{ rewrite app_length, lenN_nil. unfold lenN. cbn [length]. lia. }
        change (x ++ 34 :: [b]) with (x ++ [34] ++ [b]). rewrite app_assoc.
        rewrite firstn_app, firstn_all, Nat.sub_diag. cbn [firstn]. rewrite app_nil_r.
        apply in_or_app. right. now left.
      * assert (N.to_nat (1 + (lenN x + (1 + (1 + lenN (c :: y')))) - 2) = Nat.add (length (x ++ [34])) (length (c :: y'))) as ->.
        { rewrite app_length. unfold lenN. cbn [length]. lia. }
        change (x ++ 34 :: b :: c :: y') with (x ++ [34] ++ b :: c :: y'). rewrite app_assoc.
        rewrite firstn_app_2. apply in_or_app. left. apply in_or_app. right. now left.
Qed.

Lemma is_quoted_iff v : Forall printable v -> (is_quoted v = true <-> quoted v).
Proof.
  intros Hp. unfold is_quoted, quoted. rewrite str_len_printable by exact Hp.
  destruct (N.ltb_spec (lenN v) 2) as [Hl|Hl].
  - split; [discriminate|]. intros (x & ->). rewrite !lenN_app in Hl.
    change (lenN [34]) with 1 in Hl. lia.
  - destruct v as [|a v]; [split; [discriminate|intros (x & H); discriminate]|].
    rewrite andb_true_iff, !N.eqb_eq.
    destruct v as [|b v] using rev_ind; [rewrite lenN_cons, lenN_nil in Hl; lia|].
    clear IHv. rewrite app_comm_cons, List.last_last. split.
    + intros [-> ->]. exists v. reflexivity.
    + intros (x & H). change ([34] ++ x ++ [34]) with ((34 :: x) ++ [34]) in H. apply app_inj_tail in H as [H ->].
      injection H as -> _. auto.
Qed.

Lemma valid_value_cases v :
  (good_value v /\ valid_value v = Ok tt) \/ (exists e, value_error v e /\ valid_value v = Err e).
Proof.
  unfold valid_value, good_value.
  destruct (forallb valid_char v) eqn:E1; cbn [negb].
  2:{ right. exists InvalidAscii. split; [|reflexivity]. constructor.
      rewrite <- forallb_printable. congruence. }
  apply forallb_printable in E1.
  destruct (contains_double_quotes v) eqn:E2.
  { right. exists InvalidQuote. split; [|reflexivity].
    apply contains_double_quotes_iff in E2; [|exact E1]. now constructor. }
  assert (~ inner_quote v) as N2 by (rewrite <- contains_double_quotes_iff by exact E1; congruence).
  destruct (contains v 32) eqn:E3; cbn [andb].
  - apply contains_iff in E3. destruct (is_quoted v) eqn:E4; cbn [negb].
    + apply is_quoted_iff in E4; [|exact E1]. left. auto.
    + right. exists NoQuoteSpace. split; [|reflexivity].
      constructor; auto. rewrite <- is_quoted_iff by exact E1. congruence.
  - assert (~ In 32 v) by (rewrite <- contains_iff; congruence). left. repeat split; auto. contradiction.
Qed.

Lemma value_error_not_good v e : value_error v e -> ~ good_value v.
Proof. intros H (A & B & C). destruct H; auto; contradiction. Qed.
Lemma value_error_unique v e e' : value_error v e -> value_error v e' -> e = e'.
Proof. intros H H'. destruct H, H'; congruence || contradiction. Qed.

(** good key=value text is not changed by trimming, and is printable *)
Lemma good_key_head k c k' : good_key k -> k = c :: k' -> ~ white c.
Proof.
  intros (Hp & Hs & _) -> Hw. inversion Hp as [|? ? Hc _]; subst.
  apply Hs. left. now apply printable_white.
Qed.

Lemma good_value_last v c v' : good_value v -> v = v' ++ [c] -> ~ white c.
Proof.
  intros (Hp & _ & Hq) -> Hw.
  assert (c = 32) as ->.
  { apply printable_white; [|exact Hw]. rewrite Forall_forall in Hp. apply Hp.
    apply in_or_app. right. now left. }
  destruct Hq as [x Hx]; [apply in_or_app; right; now left|].
  rewrite app_assoc in Hx. apply app_inj_tail in Hx as [_ Hx]. discriminate.
Qed.

Lemma last_app_last {A} (l1 l2 : list A) c l' : l2 <> [] -> l1 ++ l2 = l' ++ [c] -> exists l2', l2 = l2' ++ [c].
Proof.
  intros Hne H. destruct (exists_last Hne) as (l2' & d & ->).
  rewrite app_assoc in H. apply app_inj_tail in H as [_ ->]. eauto.
Qed.

Lemma kv_trim k w :
  good_key k -> (forall c w', w = w' ++ [c] -> ~ white c) -> trim (k ++ [61] ++ w) = k ++ [61] ++ w.
Proof.
  intros Hk Hw. apply trimmed_self.
  - intros c t' H. destruct k as [|k0 k']; cbn [app] in H.
    + injection H as <- _. unfold white, white_space_chars. cbn [In]. lia.
    + injection H as <- _. eapply good_key_head; [exact Hk|reflexivity].
  - intros c t' H. destruct w as [|w0 w'].
    + rewrite app_nil_r in H. apply app_inj_tail in H as [_ <-].
      unfold white, white_space_chars. cbn [In]. lia.
    + rewrite app_assoc in H. apply last_app_last in H; [|discriminate]. destruct H as [l2' E].
      eapply Hw. exact E.
Qed.

Lemma kv_printable k w : good_key k -> Forall printable w -> Forall printable (k ++ [61] ++ w).
Proof.
  intros (Hk & _) Hw. apply Forall_app. split; [exact Hk|]. apply Forall_app. split; [|exact Hw].
  constructor; [|constructor]. unfold printable. lia.
Qed.

(** ** insert *)
Lemma insert_cases bld c k v : Inv c ->
  (exists e, key_error k e /\ insert bld c k v = (c, Err e)) \/
  (good_key k /\ exists e, value_error v e /\ insert bld c k v = (c, Err e)) \/
  (good_key k /\ good_value v /\
   ~ fits (add_arg (boot_args c) (k ++ txt "=" ++ v)) (init_args c) (capacity c) /\
   insert bld c k v = (c, Err TooLarge)) \/
  (good_key k /\ good_value v /\
   fits (add_arg (boot_args c) (k ++ txt "=" ++ v)) (init_args c) (capacity c) /\
   insert bld c k v =
     (mkCmdline (add_arg (boot_args c) (k ++ txt "=" ++ v)) (init_args c) (capacity c), Ok tt)).
Proof.
  intros HI. unfold insert.
  destruct (valid_key_cases k) as [[Hk ->]|(e & He & ->)]; cbn [ctry]; [|left; eauto].
  right. destruct (valid_value_cases v) as [[Hv ->]|(e & He & ->)]; cbn [ctry]; [|left; eauto].
  right.
  pose proof (insert_str_cases bld c (k ++ [61] ++ v) HI) as H. cbv zeta in H.
  rewrite kv_trim in H; [|exact Hk|intros; eapply good_value_last; eauto].
  change (txt "=") with [61].
  destruct H as [[Hn _]|[(Hp & Hf & E)|(Hp & Hf & E)]].
  - exfalso. apply Hn. apply kv_printable; [exact Hk|apply Hv].
  - left. auto.
  - right. auto.
Qed.

Lemma collect_values_cases vs :
  (Forall good_value vs /\ collect_values vs = Ok vs) \/
  (exists pre v post e, vs = pre ++ v :: post /\ Forall good_value pre /\ value_error v e /\
     collect_values vs = Err e).
Proof.
  induction vs as [|v vs IH]; cbn [collect_values].
  - left. auto.
  - destruct (valid_value_cases v) as [[Hv E]|(e & He & E)]; rewrite E; cbn [obind].
    + destruct IH as [[Hvs E']|(pre & w & post & e & -> & Hpre & He & E')]; rewrite E'; cbn [obind].
      * left. auto.
      * right. exists (v :: pre), w, post, e. repeat split; auto.
    + right. exists [], v, vs, e. repeat split; auto.
Qed.

Lemma join_comma vs : join [44] vs = comma_list vs.
Proof.
  induction vs as [|v [|w vs] IH]; [reflexivity|reflexivity|].
  change (v ++ [44] ++ join [44] (w :: vs) = v ++ txt "," ++ comma_list (w :: vs)). now rewrite IH.
Qed.

Lemma comma_printable vs : Forall good_value vs -> Forall printable (comma_list vs).
Proof.
  induction vs as [|v [|w vs] IH]; intros H; [constructor| |].
  - inversion H as [|? ? Hv _]; subst. apply Hv.
  - inversion H as [|? ? Hv Hr]; subst.
    change (Forall printable (v ++ txt "," ++ comma_list (w :: vs))).
    apply Forall_app. split; [apply Hv|]. apply Forall_app. split; [|apply IH, Hr].
    constructor; [|constructor]. unfold printable. cbn. lia.
Qed.

Lemma comma_last vs : Forall good_value vs -> forall c w', comma_list vs = w' ++ [c] -> ~ white c.
Proof.
  induction vs as [|v [|w vs] IH]; intros H c w' E.
  - destruct w'; discriminate.
  - inversion H as [|? ? Hv _]; subst. eapply good_value_last; [exact Hv|exact E].
  - inversion H as [|? ? Hv Hr]; subst.
    change (v ++ txt "," ++ comma_list (w :: vs) = w' ++ [c]) in E.
    destruct (comma_list (w :: vs)) as [|x y] eqn:Ec.
    + rewrite app_nil_r in E. apply app_inj_tail in E as [_ <-].
      unfold white, white_space_chars. cbn [In]. cbn. lia.
    + rewrite app_assoc in E. apply last_app_last in E; [|discriminate]. destruct E as [l2' E2].
      eapply IH; [exact Hr|exact E2].
Qed.

Lemma insert_multiple_cases bld c k vs : Inv c ->
  (exists e, key_error k e /\ insert_multiple bld c k vs = (c, Err e)) \/
  (good_key k /\ vs = [] /\ insert_multiple bld c k vs = (c, Err (MissingVal k))) \/
  (good_key k /\ exists pre v post e, vs = pre ++ v :: post /\ Forall good_value pre /\
     value_error v e /\ insert_multiple bld c k vs = (c, Err e)) \/
  (good_key k /\ vs <> [] /\ Forall good_value vs /\
   ~ fits (add_arg (boot_args c) (k ++ txt "=" ++ comma_list vs)) (init_args c) (capacity c) /\
   insert_multiple bld c k vs = (c, Err TooLarge)) \/
  (good_key k /\ vs <> [] /\ Forall good_value vs /\
   fits (add_arg (boot_args c) (k ++ txt "=" ++ comma_list vs)) (init_args c) (capacity c) /\
   insert_multiple bld c k vs =
     (mkCmdline (add_arg (boot_args c) (k ++ txt "=" ++ comma_list vs)) (init_args c) (capacity c), Ok tt)).
Proof.
  intros HI. unfold insert_multiple.
  destruct (valid_key_cases k) as [[Hk ->]|(e & He & ->)]; cbn [ctry]; [|left; eauto].
  right. destruct vs as [|v0 vs0]; [left; auto|].
  set (vs := v0 :: vs0). assert (vs <> []) as Hne by discriminate. right.
  destruct (collect_values_cases vs) as [[Hv ->]|(pre & v & post & e & E0 & Hpre & He & ->)];
    cbn [ctry]; [|left; split; [exact Hk|]; exists pre, v, post, e; auto].
  right. rewrite join_comma.
  pose proof (insert_str_cases bld c (k ++ [61] ++ comma_list vs) HI) as H. cbv zeta in H.
  rewrite kv_trim in H; [|exact Hk|intros; eapply comma_last; eauto].
  change (txt "=") with [61].
  destruct H as [[Hn _]|[(Hp & Hf & E)|(Hp & Hf & E)]].
  - exfalso. apply Hn. apply kv_printable; [exact Hk|]. apply comma_printable. exact Hv.
  - left. auto.
  - right. auto.
Qed.

(** ** virtio *)
Definition device_text (size base irq : N) (id : option N) : text :=
  guestusize_to_str size ++ txt "@0x" ++ fmt_hex base ++ txt ":" ++ fmt_dec irq ++
  match id with Some i => txt ":" ++ fmt_dec i | None => [] end.

Lemma size_str_form size :
  exists v mul suf, guestusize_to_str size = fmt_dec v ++ suf /\ v * mul = size /\
    ((suf = [71] /\ mul = 1073741824) \/ (suf = [77] /\ mul = 1048576) \/
     (suf = [75] /\ mul = 1024) \/ (suf = [] /\ mul = 1)).
Proof.
  unfold guestusize_to_str. cbv zeta.
  change (1024 * 1024 * 1024) with 1073741824. change (1024 * 1024) with 1048576.
  destruct (N.eqb_spec (size mod 1073741824) 0).
  { exists (size / 1073741824), 1073741824, [71]. repeat split; auto. lia. }
  destruct (N.eqb_spec (size mod 1048576) 0).
  { exists (size / 1048576), 1048576, [77]. repeat split; auto. lia. }
  destruct (N.eqb_spec (size mod 1024) 0).
  { exists (size / 1024), 1024, [75]. repeat split; auto 6. lia. }
  exists size, 1, []. rewrite app_nil_r. repeat split; auto 6. lia.
Qed.

Lemma parse_device_text size base irq id :
  parse_device (device_text size base irq id) = Some (size, base, irq, id).
Proof.
  unfold device_text, parse_device.
  destruct (size_str_form size) as (v & mul & suf & -> & <- & Hsuf).
  assert (forall rest, (suf ++ [64; 48; 120] ++ rest) <> [] /\
    read_suffix (suf ++ [64; 48; 120] ++ rest) = (mul, [64; 48; 120] ++ rest) /\
    (forall c r, suf ++ [64; 48; 120] ++ rest = c :: r -> dec_digit c = None)) as Hs.
  { intros rest. destruct Hsuf as [[-> ->]|[[-> ->]|[[-> ->]|[-> ->]]]];
      (split; [discriminate|split; [reflexivity|intros c r H; injection H as <- _; reflexivity]]). }
  change (txt "@0x") with [64; 48; 120]. rewrite <- app_assoc.
  set (rest := fmt_hex base ++ _). destruct (Hs rest) as (_ & Hsfx & Hnd).
  rewrite fmt_dec_read by exact Hnd. rewrite Hsfx. cbn [app]. unfold rest.
  rewrite fmt_hex_read by (intros c r H; injection H as <- _; reflexivity).
  change (txt ":") with [58]. cbn [app].
  rewrite fmt_dec_read.
  2:{ intros c r H. destruct id; [injection H as <- _; reflexivity|discriminate]. }
  destruct id as [i|]; [|reflexivity]. cbn [app].
  rewrite <- (app_nil_r (fmt_dec i)). rewrite fmt_dec_read by discriminate. reflexivity.
Qed.

Lemma device_text_ok size base irq id :
  Forall (fun c => printable c /\ c <> 32) (txt "virtio_mmio.device=" ++ device_text size base irq id).
Proof.
  assert (forall s, Forall (fun c => printable c /\ c <> 32) (txt s) <->
                    forallb (fun c => valid_char c && negb (c =? 32)) (txt s) = true) as Hs.
  { intros s. rewrite forallb_forall, Forall_forall. unfold valid_char, printable.
    split; intros H x Hx; specialize (H x Hx); lia. }
  unfold device_text. destruct (size_str_form size) as (v & mul & suf & -> & _ & Hsuf).
  apply Forall_app. split; [now apply Hs|].
  apply Forall_app. split.
  { apply Forall_app. split; [apply fmt_printable; lia|].
    destruct Hsuf as [[-> _]|[[-> _]|[[-> _]|[-> _]]]]; repeat constructor; try lia; discriminate. }
  apply Forall_app. split; [now apply Hs|].
  apply Forall_app. split; [apply fmt_printable; lia|].
  apply Forall_app. split; [now apply Hs|].
  apply Forall_app. split; [apply fmt_printable; lia|].
  destruct id; [|constructor]. apply Forall_app. split; [now apply Hs|apply fmt_printable; lia].
Qed.

Lemma no_space_trim t : Forall (fun c => printable c /\ c <> 32) t -> trim t = t.
Proof.
  intros H. rewrite Forall_forall in H. apply trimmed_self; intros c t' -> Hw.
  - destruct (H c) as [Hp Hne]; [now left|]. apply Hne. now apply printable_white.
  - destruct (H c) as [Hp Hne]; [apply in_or_app; right; now left|]. apply Hne. now apply printable_white.
Qed.

Lemma virtio_unfold bld c size base irq id :
  size <> 0 ->
  add_virtio_mmio_device bld c size base irq id =
  insert_str bld c (txt "virtio_mmio.device=" ++ device_text size base irq id).
Proof.
  intros H. unfold add_virtio_mmio_device, device_text.
  destruct (N.eqb_spec size 0); [contradiction|]. cbv zeta. f_equal.
  destruct id.
  - rewrite <- !app_assoc. reflexivity.
  - now rewrite app_nil_r.
Qed.

Lemma virtio_cases bld c size base irq id : Inv c ->
  let t := txt "virtio_mmio.device=" ++ device_text size base irq id in
  (size = 0 /\ add_virtio_mmio_device bld c size base irq id = (c, Err MmioSize)) \/
  (size <> 0 /\ ~ fits (add_arg (boot_args c) t) (init_args c) (capacity c) /\
   add_virtio_mmio_device bld c size base irq id = (c, Err TooLarge)) \/
  (size <> 0 /\ fits (add_arg (boot_args c) t) (init_args c) (capacity c) /\
   add_virtio_mmio_device bld c size base irq id =
     (mkCmdline (add_arg (boot_args c) t) (init_args c) (capacity c), Ok tt)).
Proof.
  intros HI. cbv zeta.
  destruct (N.eq_dec size 0) as [->|Hne]; [left; split; reflexivity|]. right.
  rewrite virtio_unfold by exact Hne.
  pose proof (device_text_ok size base irq id) as Hok.
  set (t := txt "virtio_mmio.device=" ++ device_text size base irq id) in *.
  pose proof (insert_str_cases bld c t HI) as H. cbv zeta in H.
  rewrite no_space_trim in H by exact Hok.
  destruct H as [[Hn _]|[(_ & Hf & E)|(_ & Hf & E)]].
  - exfalso. apply Hn. eapply Forall_impl; [|exact Hok]. intros a Ha; apply Ha.
  - left. auto.
  - right. auto.
Qed.

(** ** every operation *)
Lemma run_op_cases bld c o : Inv c ->
  (exists e, run_op bld c o = (c, Err e)) \/
  (exists t, boot_arg o t /\ Forall printable t /\ fits (add_arg (boot_args c) t) (init_args c) (capacity c) /\
     run_op bld c o = (mkCmdline (add_arg (boot_args c) t) (init_args c) (capacity c), Ok tt)) \/
  (exists t, init_arg o t /\ Forall printable t /\ fits (boot_args c) (add_arg (init_args c) t) (capacity c) /\
     run_op bld c o = (mkCmdline (boot_args c) (add_arg (init_args c) t) (capacity c), Ok tt)).
Proof.
  intros HI. destruct o as [k v|k vs|s|s|size base irq id]; cbn [run_op].
  - destruct (insert_cases bld c k v HI) as [(e & _ & E)|[(_ & e & _ & E)|[(_ & _ & _ & E)|(Hk & Hv & Hf & E)]]];
      [left; eauto|left; eauto|left; eauto|].
    right; left. exists (k ++ txt "=" ++ v). repeat split; auto.
    + constructor.
    + change (txt "=") with [61]. apply kv_printable; [exact Hk|apply Hv].
  - destruct (insert_multiple_cases bld c k vs HI)
      as [(e & _ & E)|[(_ & _ & E)|[(_ & pre & v & post & e & _ & _ & _ & E)|[(_ & _ & _ & _ & E)|(Hk & _ & Hv & Hf & E)]]]];
      [left; eauto|left; eauto|left; eauto|left; eauto|].
    right; left. exists (k ++ txt "=" ++ comma_list vs). repeat split; auto.
    + constructor.
    + change (txt "=") with [61]. apply kv_printable; [exact Hk|]. apply comma_printable. exact Hv.
  - destruct (insert_str_cases bld c s HI) as [[_ E]|[(_ & _ & E)|(Hp & Hf & E)]]; [left; eauto|left; eauto|].
    right; left. exists (trim s). repeat split; auto. constructor. apply trim_spec.
  - destruct (insert_init_cases bld c s HI) as [[_ E]|[(_ & _ & E)|(Hp & Hf & E)]]; [left; eauto|left; eauto|].
    right; right. exists (trim s). split; [constructor; apply trim_spec|]. auto using fits_with_sep_fits.
  - destruct (virtio_cases bld c size base irq id HI) as [(_ & E)|[(_ & _ & E)|(Hne & Hf & E)]]; [left; eauto|left; eauto|].
    right; left. exists (txt "virtio_mmio.device=" ++ device_text size base irq id). repeat split; auto.
    + constructor. exists (device_text size base irq id). split; [reflexivity|apply parse_device_text].
    + eapply Forall_impl; [|apply device_text_ok]. intros a Ha; apply Ha.
Qed.

Lemma run_op_inv bld c o : Inv c -> Inv (fst (run_op bld c o)) /\ capacity (fst (run_op bld c o)) = capacity c.
Proof.
  intros HI. destruct (run_op_cases bld c o HI) as [(e & E)|[(t & _ & _ & Hf & E)|(t & _ & _ & Hf & E)]];
    rewrite E; cbn [fst capacity]; (split; [|reflexivity]); [exact HI| |]; (split; [exact Hf|apply HI]).
Qed.

Lemma run_ops_inv bld os : forall c, Inv c ->
  Inv (run_ops bld c os) /\ capacity (run_ops bld c os) = capacity c.
Proof.
  induction os as [|o os IH]; intros c HI; [auto|].
  unfold run_ops in *. cbn [fold_left].
  destruct (run_op_inv bld c o HI) as [H1 H2]. destruct (IH _ H1) as [H3 H4]. split; [exact H3|congruence].
Qed.
