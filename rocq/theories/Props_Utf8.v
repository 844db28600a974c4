(** * Props_Utf8: property C97.

    The command line builder run on real UTF-8 strings - bytes, byte indices and slices that panic
    off a character boundary - does what the rules of SpecHistory say of the characters those bytes
    encode. *)
From Verif Require Import Base Base_proofs Text Cmdline SpecCmdline Text_proofs
  Cmdline_proofs Cmdline_proofs2 Cmdline_proofs3 Props_Cmdline SpecHistory Props_History SpecUtf8 Utf8 Utf8_proofs.

(** ** Well-formed UTF-8 is what encodes scalar values *)
Lemma utf8_char_unit c : scalar c -> utf8_unit (utf8_char c).
Proof.
  intros H. unfold utf8_char. pose proof (scalar_lt c H) as L.
  assert (M : forall x, x mod 64 < 64) by (intros; apply N.mod_lt; discriminate).
  pose proof (M c) as M0. pose proof (M (c / 64)) as M1. pose proof (M (c / 4096)) as M2.
  pose proof (N.div_mod c 64 ltac:(discriminate)) as D0.
  pose proof (N.div_mod (c / 64) 64 ltac:(discriminate)) as D1.
  pose proof (N.div_mod (c / 4096) 64 ltac:(discriminate)) as D2.
  rewrite (N.div_div c 64 64) in D1 by discriminate. change (64 * 64) with 4096 in D1.
  rewrite (N.div_div c 4096 64) in D2 by discriminate. change (4096 * 64) with 262144 in D2.
  assert (R : forall n lo hi, n < 256 -> lo <= n <= hi -> in_range (b8 n) lo hi).
  { intros n lo hi Hn Hr. unfold in_range. rewrite n8_b8_small by exact Hn. exact Hr. }
  destruct (N.ltb_spec c 128). { apply unit1. apply R; lia. }
  destruct (N.ltb_spec c 2048). { apply unit2; apply R; lia. }
  destruct (N.ltb_spec c 65536).
  { unfold scalar in H.
    assert (Q : c / 4096 = 0 \/ (1 <= c / 4096 <= 12) \/ c / 4096 = 13 \/ (14 <= c / 4096 <= 15)) by lia.
    destruct Q as [Q|[Q|[Q|Q]]]; [apply unit3a|apply unit3b|apply unit3c|apply unit3d]; apply R; lia. }
  assert (Q8 : c / 262144 mod 8 = c / 262144) by (apply N.mod_small; lia). rewrite Q8.
  assert (Q : c / 262144 = 0 \/ (1 <= c / 262144 <= 3) \/ c / 262144 = 4) by lia.
  destruct Q as [Q|[Q|Q]]; [apply unit4a|apply unit4b|apply unit4c]; apply R; lia.
Qed.
Lemma b8_n8_eq (b : byte) n : n8 b = n -> b8 n = b.
Proof. intros <-. apply b8_n8. Qed.
Lemma unit_utf8_char u : utf8_unit u -> exists c, scalar c /\ utf8_char c = u.
Proof.
  assert (D : forall a b, b < 64 -> (a * 64 + b) / 64 = a /\ (a * 64 + b) mod 64 = b).
  { intros a b Hb. pose proof (N.div_mod (a * 64 + b) 64 ltac:(discriminate)). pose proof (N.mod_lt (a * 64 + b) 64 ltac:(discriminate)). lia. }
  assert (U3 : forall a b c, 224 <= n8 a <= 239 -> 128 <= n8 b <= 191 -> 128 <= n8 c <= 191 ->
     let n := ((n8 a - 224) * 64 + (n8 b - 128)) * 64 + (n8 c - 128) in 2048 <= n -> utf8_char n = [a; b; c]).
  { intros a b c Ha Hb Hc n Hn. unfold utf8_char.
    destruct (D ((n8 a - 224) * 64 + (n8 b - 128)) (n8 c - 128) ltac:(lia)) as [D1 D2].
    destruct (D (n8 a - 224) (n8 b - 128) ltac:(lia)) as [D3 D4]. fold n in D1, D2.
    destruct (N.ltb_spec n 128); [lia|]. destruct (N.ltb_spec n 2048); [lia|].
    destruct (N.ltb_spec n 65536); [|unfold n in *; lia].
    assert (D5 : n / 4096 = n8 a - 224). { change 4096 with (64 * 64). rewrite <- N.div_div by discriminate. rewrite D1. exact D3. }
    rewrite D5, D1, D4, D2. f_equal; [apply b8_n8_eq; lia|]. f_equal; [apply b8_n8_eq; lia|]. f_equal. apply b8_n8_eq; lia. }
  assert (U4 : forall a b c d, 240 <= n8 a <= 244 -> 128 <= n8 b <= 191 -> 128 <= n8 c <= 191 -> 128 <= n8 d <= 191 ->
     let n := (((n8 a - 240) * 64 + (n8 b - 128)) * 64 + (n8 c - 128)) * 64 + (n8 d - 128) in 65536 <= n -> utf8_char n = [a; b; c; d]).
  { intros a b c d Ha Hb Hc Hd n Hn. unfold utf8_char.
    destruct (D (((n8 a - 240) * 64 + (n8 b - 128)) * 64 + (n8 c - 128)) (n8 d - 128) ltac:(lia)) as [D1 D2].
    destruct (D ((n8 a - 240) * 64 + (n8 b - 128)) (n8 c - 128) ltac:(lia)) as [D3 D4].
    destruct (D (n8 a - 240) (n8 b - 128) ltac:(lia)) as [D5 D6]. fold n in D1, D2.
    destruct (N.ltb_spec n 128); [lia|]. destruct (N.ltb_spec n 2048); [lia|]. destruct (N.ltb_spec n 65536); [lia|].
    assert (E1 : n / 4096 = (n8 a - 240) * 64 + (n8 b - 128)). { change 4096 with (64 * 64). rewrite <- N.div_div by discriminate. rewrite D1. exact D3. }
    assert (E2 : n / 262144 = n8 a - 240). { change 262144 with (4096 * 64). rewrite <- N.div_div by discriminate. rewrite E1. exact D5. }
    rewrite E2, E1, D1, D2, D4, D6. rewrite (N.mod_small (n8 a - 240) 8) by lia.
    f_equal; [apply b8_n8_eq; lia|]. f_equal; [apply b8_n8_eq; lia|]. f_equal; [apply b8_n8_eq; lia|]. f_equal. apply b8_n8_eq; lia. }
  intros H. inversion H as [a Ha|a b Ha Hb|a b c Ha Hb Hc|a b c Ha Hb Hc|a b c Ha Hb Hc|a b c Ha Hb Hc
                           |a b c d Ha Hb Hc Hd|a b c d Ha Hb Hc Hd|a b c d Ha Hb Hc Hd]; unfold in_range in *; clear H.
  - exists (n8 a). split; [unfold scalar; lia|]. unfold utf8_char. destruct (N.ltb_spec (n8 a) 128); [|lia]. f_equal. apply b8_n8.
  - exists ((n8 a - 192) * 64 + (n8 b - 128)). split; [unfold scalar; lia|]. unfold utf8_char.
    destruct (D (n8 a - 192) (n8 b - 128) ltac:(lia)) as [D1 D2].
    destruct (N.ltb_spec ((n8 a - 192) * 64 + (n8 b - 128)) 128); [lia|].
    destruct (N.ltb_spec ((n8 a - 192) * 64 + (n8 b - 128)) 2048); [|lia].
    rewrite D1, D2. f_equal; [apply b8_n8_eq; lia|]. f_equal. apply b8_n8_eq; lia.
  - eexists. split; [|apply U3; lia]. unfold scalar; lia.
  - eexists. split; [|apply U3; lia]. unfold scalar; lia.
  - eexists. split; [|apply U3; lia]. unfold scalar; lia.
  - eexists. split; [|apply U3; lia]. unfold scalar; lia.
  - eexists. split; [|apply U4; lia]. unfold scalar; lia.
  - eexists. split; [|apply U4; lia]. unfold scalar; lia.
  - eexists. split; [|apply U4; lia]. unfold scalar; lia.
Qed.
Lemma wf_utf8 s : scalars s -> well_formed (utf8 s).
Proof.
  induction 1 as [|c s H _ IH]; [constructor|]. rewrite utf8_cons. apply wf_char; [apply utf8_char_unit, H|exact IH].
Qed.
Lemma wf_chars b : well_formed b -> exists s, scalars s /\ utf8 s = b.
Proof.
  induction 1 as [|u s H _ (t & T & <-)]; [exists []; split; [constructor|reflexivity]|].
  destruct (unit_utf8_char u H) as (c & C & <-). exists (c :: t). split; [constructor; assumption|apply utf8_cons].
Qed.
(** The model's character strings are exactly the well-formed UTF-8 byte strings, one for one. *)
Theorem C97_utf8 :
  (forall s, scalars s -> well_formed (utf8 s) /\ chars (utf8 s) = s) /\
  (forall b, well_formed b -> scalars (chars b) /\ utf8 (chars b) = b).
Proof.
  split.
  - intros s H. split; [apply wf_utf8, H|apply chars_utf8, H].
  - intros b H. destruct (wf_chars b H) as (s & Hs & <-). rewrite chars_utf8 by exact Hs. split; [exact Hs|reflexivity].
Qed.

(** ** Histories *)
Definition dec_op (o : u_op) : op :=
  match o with
  | UInsert k v => OpInsert (chars k) (chars v)
  | UMultiple k vs => OpMultiple (chars k) (map chars vs)
  | UStr s => OpStr (chars s)
  | UInit s => OpInit (chars s)
  | UVirtio size base irq id => OpVirtio size base irq id
  end.
Definition dec_ctor (k : u_ctor) : ctor :=
  match k with UNew cap => New cap | UParse raw cap => Parse (chars raw) cap end.

Lemma dec_vs vs : Forall well_formed vs -> map utf8 (map chars vs) = vs /\ Forall scalars (map chars vs).
Proof.
  induction 1 as [|v vs H _ [E F]]; [split; [reflexivity|constructor]|].
  destruct (proj2 C97_utf8 v H) as [S1 S2]. cbn [map]. rewrite S2, E. split; [reflexivity|constructor; assumption].
Qed.
Lemma dec_op_ok o : u_op_typed o -> enc_op (dec_op o) = o /\ op_scalars (dec_op o).
Proof.
  destruct o as [k v|k vs|s|s|size base irq id]; cbn [u_op_typed dec_op enc_op op_scalars].
  - intros [K V]. destruct (proj2 C97_utf8 k K) as [K1 ->], (proj2 C97_utf8 v V) as [V1 ->]. split; [reflexivity|split; assumption].
  - intros [K V]. destruct (proj2 C97_utf8 k K) as [K1 ->], (dec_vs vs V) as [-> V1]. split; [reflexivity|split; assumption].
  - intros K. destruct (proj2 C97_utf8 s K) as [K1 ->]. split; [reflexivity|assumption].
  - intros K. destruct (proj2 C97_utf8 s K) as [K1 ->]. split; [reflexivity|assumption].
  - intros _. split; [reflexivity|exact I].
Qed.
Lemma dec_ops_ok os : Forall u_op_typed os -> map enc_op (map dec_op os) = os /\ Forall op_scalars (map dec_op os).
Proof.
  induction 1 as [|o os H _ [E F]]; [split; [reflexivity|constructor]|].
  destruct (dec_op_ok o H) as [E1 F1]. cbn [map]. rewrite E1, E. split; [reflexivity|constructor; assumption].
Qed.
Lemma dec_ctor_ok k : u_ctor_typed k -> enc_ctor (dec_ctor k) = k /\ ctor_scalars (dec_ctor k) /\ ctor_typed (dec_ctor k).
Proof.
  destruct k as [cap|raw cap]; cbn [u_ctor_typed dec_ctor enc_ctor ctor_scalars ctor_typed].
  - intros H. split; [reflexivity|]. split; [exact I|exact H].
  - intros (H1 & H2 & H3). destruct (proj2 C97_utf8 raw H3) as [K1 K2]. rewrite K2.
    split; [reflexivity|]. split; [exact K1|]. split; assumption.
Qed.

Lemma ctor_u bld k : ctor_scalars k -> ctor_typed k -> u_ctor_run bld (enc_ctor k) = enc_out enc (run_ctor k).
Proof.
  destruct k as [cap|raw cap]; cbn [ctor_scalars ctor_typed enc_ctor u_ctor_run run_ctor].
  - intros _ _. unfold u_new, cmdline_new. destruct (cap =? 0); reflexivity.
  - intros H [_ L]. apply try_from_u; assumption.
Qed.
Lemma results_u bld os : Forall op_scalars os -> forall c,
  u_results bld (enc c) (map enc_op os) = map (enc_out (fun x => x)) (results bld c os) /\
  u_runs bld (enc c) (map enc_op os) = enc (run_ops bld c os).
Proof.
  induction 1 as [|o os H _ IH]; intros c; [split; reflexivity|].
  cbn [map u_results results]. unfold u_runs, run_ops. cbn [fold_left]. rewrite run_u by exact H. cbn [enc_res fst snd].
  destruct (IH (fst (run_op bld c o))) as [E1 E2]. split; [f_equal; exact E1|exact E2].
Qed.
Lemma story_u bld k os : ctor_scalars k -> ctor_typed k -> Forall op_scalars os ->
  bytes_story bld (enc_ctor k) (map enc_op os) = option_map enc_story (crate_story bld k os).
Proof.
  intros H1 H2 H3. unfold bytes_story, crate_story. rewrite ctor_u by assumption.
  destruct (run_ctor k) as [c|e|p]; cbn [enc_out option_map enc_story]; [|reflexivity|reflexivity].
  destruct (results_u bld os H3 c) as [-> ->]. rewrite as_cstring_u. reflexivity.
Qed.
Lemma enc_op_scalars_dec o : op_scalars o -> dec_op (enc_op o) = o /\ u_op_typed (enc_op o).
Proof.
  assert (X : forall s, scalars s -> chars (utf8 s) = s /\ well_formed (utf8 s)) by (intros s H; split; apply C97_utf8, H).
  destruct o as [k v|k vs|s|s|size base irq id]; cbn [op_scalars dec_op enc_op u_op_typed].
  - intros [K V]. destruct (X k K) as [-> K1], (X v V) as [-> V1]. split; [reflexivity|split; assumption].
  - intros [K V]. destruct (X k K) as [-> K1].
    assert (Y : map chars (map utf8 vs) = vs /\ Forall well_formed (map utf8 vs)).
    { induction V as [|v vs V0 _ [E F]]; [split; [reflexivity|constructor]|]. destruct (X v V0) as [E1 F1].
      cbn [map]. rewrite E1, E. split; [reflexivity|constructor; assumption]. }
    destruct Y as [-> Y]. split; [reflexivity|split; assumption].
  - intros K. destruct (X s K) as [-> K1]. split; [reflexivity|assumption].
  - intros K. destruct (X s K) as [-> K1]. split; [reflexivity|assumption].
  - intros _. split; [reflexivity|exact I].
Qed.

(** ** C97: a history on byte strings tells the story the rules tell of the characters. *)
Theorem C97_story : forall bld k os us,
  u_ctor_typed k -> Forall u_op_typed os ->
  (bytes_story bld k os = Some us <->
   exists k' os' s, ctor_scalars k' /\ Forall op_scalars os' /\ enc_ctor k' = k /\ map enc_op os' = os /\
     history_says k' os' s /\ us = enc_story s).
Proof.
  intros bld k os us K O.
  destruct (dec_ctor_ok k K) as (E1 & S1 & T1). destruct (dec_ops_ok os O) as [E2 S2].
  rewrite <- E1, <- E2, story_u by assumption. split.
  - destruct (crate_story bld (dec_ctor k) (map dec_op os)) as [s|] eqn:E; [|discriminate].
    intros H. injection H as <-. exists (dec_ctor k), (map dec_op os), s.
    split; [exact S1|]. split; [exact S2|]. split; [reflexivity|]. split; [reflexivity|]. split; [|reflexivity].
    apply (C79_history bld); assumption.
  - intros (k' & os' & s & S3 & S4 & E3 & E4 & H & ->).
    assert (Ek : k' = dec_ctor k).
    { rewrite E1 in E3. subst k. destruct k' as [cap|raw cap]; [reflexivity|]. cbn [enc_ctor dec_ctor].
      rewrite chars_utf8 by exact S3. reflexivity. }
    assert (Eo : os' = map dec_op os).
    { rewrite E2 in E4. subst os. clear -S4. induction S4 as [|o os' H _ IH]; [reflexivity|].
      cbn [map]. rewrite (proj1 (enc_op_scalars_dec o H)), <- IH. reflexivity. }
    subst k' os'. apply (C79_history bld) in H; [|exact T1]. rewrite H. reflexivity.
Qed.

(** No slice is ever off a character boundary and nothing overflows: no panic, in either build. *)
Lemma results_fine bld os : forall c, reachable bld c -> Forall (fun r => forall p, r <> Panic p) (results bld c os).
Proof.
  induction os as [|o os IH]; intros c R; cbn [results]; constructor.
  - apply (C16_no_panic bld bld c o R).
  - apply IH, reachable_step, R.
Qed.
Theorem C97_no_panic : forall bld k os, u_ctor_typed k -> Forall u_op_typed os ->
  exists us, bytes_story bld k os = Some us /\
    match us with
    | UNoBuilder _ => True
    | UBuilt rs f => Forall (fun r => forall p, r <> Panic p) rs /\ forall p, f <> Panic p
    end.
Proof.
  intros bld k os K O. destruct (dec_ctor_ok k K) as (E1 & S1 & T1). destruct (dec_ops_ok os O) as [E2 S2].
  rewrite <- E1, <- E2, story_u by assumption. unfold crate_story.
  destruct (run_ctor (dec_ctor k)) as [c|e|p] eqn:E; cbn [option_map enc_story].
  - eexists. split; [reflexivity|]. split.
    + assert (R : reachable bld c). { exists (dec_ctor k), c, []. split; [exact T1|]. split; [exact E|reflexivity]. }
      pose proof (results_fine bld (map dec_op os) c R) as F. apply Forall_map. eapply Forall_impl; [|exact F].
      intros r Hr p. destruct r as [x|e|q]; cbn [enc_out]; [discriminate|discriminate|]. intros Q. exact (Hr q eq_refl).
    + intros p. unfold as_cstring, cstring_new.
      destruct (is_empty _ && is_empty _); [|destruct (is_empty _); [|destruct (is_empty _)]]; cbn [enc_out]; try discriminate;
        destruct (existsb _ _); cbn [enc_out]; discriminate.
  - eexists. split; [reflexivity|exact I].
  - exfalso. exact (C16_ctor_no_panic _ _ T1 E).
Qed.

(** The stored strings stay well-formed UTF-8 (a Rust [String]'s invariant). *)
Lemma run_scalars bld c o : reachable bld c -> op_scalars o -> scalars (boot_args c) -> scalars (init_args c) ->
  scalars (boot_args (fst (run_op bld c o))) /\ scalars (init_args (fst (run_op bld c o))).
Proof.
  intros R H B J. destruct (run_op bld c o) as [c' r] eqn:E. pose proof (call_obeys bld c o c' r R E) as Q.
  cbn [fst].
  assert (A : forall b t, scalars b -> scalars t -> scalars (add_arg b t)).
  { intros b t Hb Ht. unfold add_arg. destruct b as [|x b]; [exact Ht|]. apply scalars_app; [exact Hb|].
    apply scalars_app; [repeat constructor|exact Ht]. }
  assert (G : forall k v, scalars k -> scalars v -> scalars (k ++ txt "=" ++ v)).
  { intros k v Hk Hv. apply scalars_app; [exact Hk|]. apply scalars_app; [repeat constructor|exact Hv]. }
  assert (P : forall s t, trimmed_of s t -> scalars s -> scalars t).
  { intros s t (l & r0 & -> & _) Hs. unfold scalars in *. apply Forall_app in Hs as [_ Hs]. apply Forall_app in Hs as [Hs _]. exact Hs. }
  inversion Q as [| | s t Q1 Q2 Q3| | |s t Q1 Q2 Q3| | | |k v Q1 Q2 Q3| | | | |k vs Q1 Q2 Q3 Q4| | |size base irq id t Q1 Q2 Q3];
    subst; cbn [op_scalars] in H; try (split; assumption).
  - split; [|assumption]. apply A; [exact B|]. exact (P s t Q1 H).
  - split; [assumption|]. apply A; [exact J|]. exact (P s t Q1 H).
  - split; [|assumption]. apply A; [exact B|]. apply G; apply H.
  - split; [|assumption]. apply A; [exact B|]. apply G; [apply H|]. apply printable_scalars, comma_printable, Q3.
  - split; [|assumption]. apply A; [exact B|].
    rewrite (device_argument_unique _ _ _ _ _ _ Q2 (device_argument_ok size base irq id)). apply device_scalars.
Qed.
Lemma runs_scalars bld os : Forall op_scalars os -> forall c, reachable bld c -> scalars (boot_args c) -> scalars (init_args c) ->
  scalars (boot_args (run_ops bld c os)) /\ scalars (init_args (run_ops bld c os)).
Proof.
  induction 1 as [|o os H _ IH]; intros c R B J; [split; assumption|].
  unfold run_ops. cbn [fold_left]. destruct (run_scalars bld c o R H B J) as [B' J'].
  exact (IH _ (reachable_step bld c o R) B' J').
Qed.
Lemma ctor_stored k c : ctor_scalars k -> ctor_typed k -> run_ctor k = Ok c -> scalars (boot_args c) /\ scalars (init_args c).
Proof.
  intros S T E. destruct (ctor_obeys k T) as [(e & E' & _)|(c' & E' & _ & Q)]; rewrite E in E'; [discriminate|].
  injection E' as <-.
  assert (P : forall s t, trimmed_of s t -> scalars s -> scalars t).
  { intros s t (l & r0 & -> & _) Hs. unfold scalars in *. apply Forall_app in Hs as [_ Hs]. apply Forall_app in Hs as [Hs _]. exact Hs. }
  inversion Q as [| cap Hc Ek [Eb Ei]| |raw cap boot init Hp Hc Hf Ek [Eb Ei]]; subst k; cbn [ctor_scalars] in S.
  - split; constructor.
  - destruct Hp as [(i & _ & T1 & T2)|(_ & T1 & Ti)].
    + split.
      * apply (P _ _ T1). unfold scalars in *. rewrite <- (firstn_skipn i raw) in S. apply Forall_app in S. apply S.
      * apply (P _ _ T2). unfold scalars in *. rewrite <- (firstn_skipn (i + 4) raw) in S. apply Forall_app in S. apply S.
    + rewrite Ti. split; [exact (P _ _ T1 S)|constructor].
Qed.
Theorem C97_stays_utf8 : forall bld k os c0, u_ctor_typed k -> Forall u_op_typed os ->
  u_ctor_run bld k = Ok c0 ->
  well_formed (u_boot (u_runs bld c0 os)) /\ well_formed (u_init (u_runs bld c0 os)).
Proof.
  intros bld k os c0 K O. destruct (dec_ctor_ok k K) as (E1 & S1 & T1). destruct (dec_ops_ok os O) as [E2 S2].
  rewrite <- E1, <- E2, ctor_u by assumption. destruct (run_ctor (dec_ctor k)) as [c|e|p] eqn:E; [|discriminate|discriminate].
  cbn [enc_out]. intros H. injection H as <-. destruct (results_u bld _ S2 c) as [_ ->]. cbn [enc u_boot u_init].
  destruct (ctor_stored _ _ S1 T1 E) as [B J].
  assert (R : reachable bld c). { exists (dec_ctor k), c, []. split; [exact T1|]. split; [exact E|reflexivity]. }
  destruct (runs_scalars bld _ S2 c R B J) as [B' J']. split; apply wf_utf8; assumption.
Qed.

(** "é=\u{1F600} -- \u{2003}ü\u{3000}" parsed in 18 bytes of capacity, then called with texts
    outside ASCII, one of them printable once trimmed. *)
Definition parse_arg : bytes := utf8 ([0xe9; 61; 0x1f600] ++ txt " -- " ++ [0x2003; 0xfc; 0x3000]).
Example C97_applies :
  let k := UParse parse_arg 18 in
  let os := [UStr (utf8 [0xe9]); UStr (utf8 [0xa0; 113; 0x2028]); UMultiple (utf8 [113]) []; UStr (utf8 [113; 113])] in
  u_ctor_typed k /\ Forall u_op_typed os /\
  bytes_story true k os =
    Some (UBuilt [Err (Plain InvalidAscii); Ok tt; Err (NoVal [b8 113]); Err (Plain TooLarge)]
            (Ok (utf8 ([0xe9; 61; 0x1f600; 32; 113] ++ txt " -- " ++ [0xfc])))).
Proof.
  cbv zeta.
  assert (W : forall s, forallb (fun c => (c <? 0xd800) || ((0xe000 <=? c) && (c <? 0x110000))) s = true -> well_formed (utf8 s)).
  { intros s H. apply wf_utf8. unfold scalars. apply Forall_forall. intros c Hc. rewrite forallb_forall in H. specialize (H c Hc).
    unfold scalar. destruct (N.ltb_spec c 0xd800); [left; assumption|]. cbn [orb] in H.
    apply andb_true_iff in H as [H1 H2]. apply N.leb_le in H1. apply N.ltb_lt in H2. right. split; assumption. }
  split.
  { cbn [u_ctor_typed]. split; [reflexivity|]. split; [vm_compute; reflexivity|]. apply W. vm_compute. reflexivity. }
  split.
  { constructor. { apply W. vm_compute. reflexivity. } constructor. { apply W. vm_compute. reflexivity. }
    constructor. { split; [apply W; vm_compute; reflexivity|constructor]. } constructor. { apply W. vm_compute. reflexivity. } constructor. }
  vm_compute. reflexivity.
Qed.
(** Off a boundary a slice does panic: the model of slicing is not vacuous. *)
Example C97_slices_can_panic :
  str_to (E := u_error) (utf8 [0xe9; 61]) 1 = Panic SliceBounds /\
  str_from (E := u_error) (utf8 [0xe9; 61]) 1 = Panic SliceBounds /\
  str_from (E := u_error) (utf8 [0xe9; 61]) 4 = Panic SliceBounds.
Proof. vm_compute. split; [reflexivity|]. split; reflexivity. Qed.
