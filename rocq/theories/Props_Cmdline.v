(** * Props_Cmdline: the command line properties C01-C17.

    Vocabulary: SpecCmdline.v (and [utf8] of Text.v).  [bld] is the build profile ([true]: debug,
    overflow checks on); every theorem holds for both.  [reachable bld c]: [c] comes from
    [Cmdline::new] or [Cmdline::try_from] and any sequence of builder calls. *)
From Verif Require Import Base Base_proofs Text Cmdline SpecCmdline Text_proofs
  Cmdline_proofs Cmdline_proofs2 Cmdline_proofs3.

(** A concrete builder used to show that hypotheses are met: two boot arguments, init arguments,
    and rejected calls in between. *)
Definition demo_ops : list op :=
  [ OpInsert (txt "console") (txt "ttyS0"); OpInsert (txt "bad key") (txt "v");
    OpVirtio 4096 3489660928 5 (Some 2); OpInit (txt "  --verbose "); OpStr (txt "quiet ");
    OpMultiple (txt "a") [txt "1"; txt "2"]; OpInit [233] ].
Definition demo (bld : build) : cmdline := run_ops bld (mkCmdline [] [] 128) demo_ops.

Example demo_text bld : boot_args (demo bld) =
    txt "console=ttyS0 virtio_mmio.device=4K@0xd0000000:5:2 quiet a=1,2" /\
  init_args (demo bld) = txt "--verbose" /\ capacity (demo bld) = 128.
Proof. destruct bld; repeat split; vm_compute; reflexivity. Qed.

Example demo_reachable bld : reachable bld (demo bld).
Proof. exists (New 128), (mkCmdline [] [] 128), demo_ops. repeat split. Qed.

(** ** C01: the serialised command line never exceeds the capacity. *)
Theorem C01_capacity_respected : forall bld k c0 os v,
  ctor_typed k -> run_ctor k = Ok c0 ->
  cmdline_to_vec (run_ops bld c0 os) = Ok v ->
  lenN v <= ctor_cap k.
Proof. exact capacity_respected. Qed.

Example C01_applies : exists v, cmdline_to_vec (demo true) = Ok v /\ lenN v = 76.
Proof. eexists. split; [vm_compute; reflexivity|vm_compute; reflexivity]. Qed.

(** ** C02: a rejected call leaves the builder as it was. *)
Theorem C02_rejected_unchanged : forall bld c o c' e,
  run_op bld c o = (c', Err e) -> c' = c.
Proof. exact rejected_unchanged. Qed.

Example C02_applies : run_op true (demo true) (OpInsert (txt "k") (txt "a b")) = (demo true, Err NoQuoteSpace).
Proof. vm_compute. reflexivity. Qed.

(** ** C03: the command line is the ordered concatenation of what was accepted. *)
Theorem C03_ordered_concatenation : forall bld k c0 os,
  ctor_typed k -> run_ctor k = Ok c0 ->
  exists boot0 init0 bs is,
    ctor_parts k boot0 init0 /\
    accepted bld c0 os bs is (run_ops bld c0 os) /\
    as_cstring (run_ops bld c0 os) = serialised (args_text (boot0 :: bs)) (args_text (init0 :: is)).
Proof. exact concatenation. Qed.

Example C03_applies :
  as_cstring (demo true) =
  Ok (utf8 (txt "console=ttyS0 virtio_mmio.device=4K@0xd0000000:5:2 quiet a=1,2 -- --verbose")).
Proof. vm_compute. reflexivity. Qed.
Example C03_blank_leaves_no_trace :
  as_cstring (run_ops true (mkCmdline [] [] 50) [OpStr (txt "  "); OpStr (txt "a"); OpStr (txt " "); OpStr (txt "b")]) =
  Ok (utf8 (txt "a  b")).
Proof. vm_compute. reflexivity. Qed.

(** ** C04: acceptance of insert_str and insert_init_args. *)
Theorem C04_insert_str : forall bld c s t,
  reachable bld c -> trimmed_of s t ->
  let boot := add_arg (boot_args c) t in
  (snd (insert_str bld c s) = Ok tt <-> Forall printable t /\ fits boot (init_args c) (capacity c)) /\
  (snd (insert_str bld c s) = Err InvalidAscii <-> ~ Forall printable t) /\
  (snd (insert_str bld c s) = Err TooLarge <-> Forall printable t /\ ~ fits boot (init_args c) (capacity c)) /\
  (snd (insert_str bld c s) = Ok tt ->
     fst (insert_str bld c s) = mkCmdline boot (init_args c) (capacity c)).
Proof.
  intros bld c s t Hr Ht. apply reachable_inv in Hr. apply trimmed_unique in Ht as ->.
  destruct (insert_str_cases bld c s Hr) as [(H & ->)|[(H & H' & ->)|(H & H' & ->)]]; cbn [fst snd];
    intuition congruence.
Qed.

(** The separator is counted even if the (first) init argument is blank. *)
Theorem C04_insert_init_args : forall bld c s t,
  reachable bld c -> trimmed_of s t ->
  let init := add_arg (init_args c) t in
  (snd (insert_init_args bld c s) = Ok tt <-> Forall printable t /\ fits_with_sep (boot_args c) init (capacity c)) /\
  (snd (insert_init_args bld c s) = Err InvalidAscii <-> ~ Forall printable t) /\
  (snd (insert_init_args bld c s) = Err TooLarge <->
     Forall printable t /\ ~ fits_with_sep (boot_args c) init (capacity c)) /\
  (snd (insert_init_args bld c s) = Ok tt ->
     fst (insert_init_args bld c s) = mkCmdline (boot_args c) init (capacity c)).
Proof.
  intros bld c s t Hr Ht. apply reachable_inv in Hr. apply trimmed_unique in Ht as ->.
  destruct (insert_init_cases bld c s Hr) as [(H & ->)|[(H & H' & ->)|(H & H' & ->)]]; cbn [fst snd];
    intuition congruence.
Qed.

(** For text that is not blank the two size conditions are the same. *)
Theorem C04_sep_counted : forall boot init cap, init <> [] -> (fits_with_sep boot init cap <-> fits boot init cap).
Proof. intros boot [|i r] cap H; [contradiction|]. reflexivity. Qed.

Example C04_applies : trimmed_of (txt "  a b ") (txt "a b") /\
  snd (insert_str true (demo true) (txt "  a b ")) = Ok tt /\
  snd (insert_str true (demo true) [9; 97; 7; 98]) = Err InvalidAscii /\
  snd (insert_init_args true (demo true) (repeat 97 60)) = Err TooLarge.
Proof.
  split; [|vm_compute; auto].
  replace (txt "a b") with (trim (txt "  a b ")) by reflexivity. apply trim_spec.
Qed.
(** Exact boundary: "a b" needs 4 bytes. *)
Example C04_boundary :
  snd (insert_str true (mkCmdline (txt "a") [] 4) (txt "b")) = Ok tt /\
  snd (insert_str true (mkCmdline (txt "a") [] 3) (txt "b")) = Err TooLarge.
Proof. vm_compute. auto. Qed.
(** Blank init text on an empty init part needs four bytes of room though it leaves no trace. *)
Example C04_blank_init_needs_room :
  snd (insert_init_args true (mkCmdline (txt "a") [] 5) []) = Err TooLarge /\
  insert_init_args true (mkCmdline (txt "a") [] 6) [] = (mkCmdline (txt "a") [] 6, Ok tt).
Proof. vm_compute. auto. Qed.

(** ** C05: key=value insertion. *)
Theorem C05_insert : forall bld c k v,
  reachable bld c ->
  let boot := add_arg (boot_args c) (k ++ txt "=" ++ v) in
  (forall e, key_error k e -> insert bld c k v = (c, Err e)) /\
  (forall e, good_key k -> value_error v e -> insert bld c k v = (c, Err e)) /\
  (good_key k -> good_value v -> ~ fits boot (init_args c) (capacity c) ->
     insert bld c k v = (c, Err TooLarge)) /\
  (good_key k -> good_value v -> fits boot (init_args c) (capacity c) ->
     insert bld c k v = (mkCmdline boot (init_args c) (capacity c), Ok tt)) /\
  (snd (insert bld c k v) = Ok tt -> good_key k /\ good_value v /\ fits boot (init_args c) (capacity c)).
Proof.
  intros bld c k v Hr. apply reachable_inv in Hr. cbv zeta.
  pose proof (key_error_not_good k) as Kn. pose proof (value_error_not_good v) as Vn.
  destruct (insert_cases bld c k v Hr) as
    [(e & He & ->)|[(Hk & e & He & ->)|[(Hk & Hv & Hf & ->)|(Hk & Hv & Hf & ->)]]]; cbn [snd].
  - assert (~ good_key k) as N by (eapply Kn; eassumption).
    split. { intros e' He'. now rewrite (key_error_unique k e e' He He'). }
    split. { intros; contradiction. } split. { intros; contradiction. }
    split. { intros; contradiction. } discriminate.
  - assert (~ good_value v) as N by (eapply Vn; eassumption).
    split. { intros e' He'. exfalso. eapply Kn; eassumption. }
    split. { intros e' _ He'. now rewrite (value_error_unique v e e' He He'). }
    split. { intros; contradiction. } split. { intros; contradiction. } discriminate.
  - split. { intros e' He'. exfalso. eapply Kn; eassumption. }
    split. { intros e' _ He'. exfalso. eapply Vn; eassumption. }
    split. { reflexivity. } split. { intros; contradiction. } discriminate.
  - split. { intros e' He'. exfalso. eapply Kn; eassumption. }
    split. { intros e' _ He'. exfalso. eapply Vn; eassumption. }
    split. { intros; contradiction. } split. { reflexivity. } auto.
Qed.

(** The cases above are exhaustive. *)
Theorem C05_cases_exhaustive : forall k v,
  (good_key k \/ exists e, key_error k e) /\ (good_value v \/ exists e, value_error v e).
Proof.
  intros k v. split.
  - destruct (valid_key_cases k) as [(H & _)|(e & H & _)]; eauto.
  - destruct (valid_value_cases v) as [(H & _)|(e & H & _)]; eauto.
Qed.

Example C05_applies :
  insert true (demo true) (txt "root") ([34] ++ txt "/dev/a b" ++ [34]) =
    (mkCmdline (txt "console=ttyS0 virtio_mmio.device=4K@0xd0000000:5:2 quiet a=1,2 root=" ++ [34] ++ txt "/dev/a b" ++ [34])
       (txt "--verbose") 128, Ok tt) /\
  snd (insert true (demo true) (txt "k=") (txt "v")) = Err HasEquals /\
  snd (insert true (demo true) (txt "k") (txt "a" ++ [34] ++ txt "b")) = Err InvalidQuote /\
  snd (insert true (demo true) (txt "k") (repeat 97 60)) = Err TooLarge.
Proof. vm_compute. auto. Qed.

(** ** C06: insert_multiple. *)
Theorem C06_insert_multiple : forall bld c k vs,
  reachable bld c ->
  let boot := add_arg (boot_args c) (k ++ txt "=" ++ comma_list vs) in
  (forall e, key_error k e -> insert_multiple bld c k vs = (c, Err e)) /\
  (good_key k -> vs = [] -> insert_multiple bld c k vs = (c, Err (MissingVal k))) /\
  (forall pre v post e, good_key k -> vs = pre ++ v :: post -> Forall good_value pre ->
     value_error v e -> insert_multiple bld c k vs = (c, Err e)) /\
  (good_key k -> vs <> [] -> Forall good_value vs -> ~ fits boot (init_args c) (capacity c) ->
     insert_multiple bld c k vs = (c, Err TooLarge)) /\
  (good_key k -> vs <> [] -> Forall good_value vs -> fits boot (init_args c) (capacity c) ->
     insert_multiple bld c k vs = (mkCmdline boot (init_args c) (capacity c), Ok tt)) /\
  (snd (insert_multiple bld c k vs) = Ok tt ->
     good_key k /\ vs <> [] /\ Forall good_value vs /\ fits boot (init_args c) (capacity c)).
Proof.
  intros bld c k vs Hr. apply reachable_inv in Hr. cbv zeta.
  pose proof (key_error_not_good k) as Kn.
  assert (forall l v post e, vs = l ++ v :: post -> value_error v e -> ~ Forall good_value vs) as Vn.
  { intros l v post e -> He H. apply Forall_app in H as [_ H]. inversion H; subst.
    eapply value_error_not_good; eassumption. }
  assert (forall l v post e l' v' post' e',
    vs = l ++ v :: post -> Forall good_value l -> value_error v e ->
    vs = l' ++ v' :: post' -> Forall good_value l' -> value_error v' e' -> e = e') as Vu.
  { clear. induction vs as [|x vs IH]; intros l v post e l' v' post' e' E Hl He E' Hl' He'.
    { destruct l; discriminate. }
    destruct l as [|y l], l' as [|y' l']; cbn [app] in E, E'; injection E as Ex E; injection E' as Ex' E'; subst.
    - eapply value_error_unique; eassumption.
    - exfalso. inversion Hl'; subst.
      match goal with H : value_error ?a _, G : good_value ?a |- _ => exact (value_error_not_good _ _ H G) end.
    - exfalso. inversion Hl; subst.
      match goal with H : value_error ?a _, G : good_value ?a |- _ => exact (value_error_not_good _ _ H G) end.
    - inversion Hl as [|? ? _ Hl2]; inversion Hl' as [|? ? _ Hl2']; subst.
      eapply (IH l v post e l' v' post' e'); auto. }
  destruct (insert_multiple_cases bld c k vs Hr) as
    [(e & He & ->)|[(Hk & Hv & ->)|[(Hk & pre & v & post & e & E & Hpre & He & ->)|
     [(Hk & Hne & Hv & Hf & ->)|(Hk & Hne & Hv & Hf & ->)]]]]; cbn [snd].
  - assert (~ good_key k) as N by (eapply Kn; eassumption).
    split. { intros e' He'. now rewrite (key_error_unique k e e' He He'). }
    split. { intros; contradiction. } split. { intros; contradiction. } split. { intros; contradiction. }
    split. { intros; contradiction. } discriminate.
  - split. { intros e' He'. exfalso. eapply Kn; eassumption. }
    split. { reflexivity. }
    split. { intros pre v post e _ E. subst vs. destruct pre; discriminate. }
    split. { intros; contradiction. } split. { intros; contradiction. } discriminate.
  - assert (~ Forall good_value vs) as N by (eapply Vn; eassumption).
    split. { intros e' He'. exfalso. eapply Kn; eassumption. }
    split. { intros _ E'. subst vs. destruct pre; discriminate. }
    split. { intros pre' v' post' e' _ E' Hp' He'. do 2 f_equal. exact (Vu pre v post e pre' v' post' e' E Hpre He E' Hp' He'). }
    split. { intros; contradiction. } split. { intros; contradiction. } discriminate.
  - split. { intros e' He'. exfalso. eapply Kn; eassumption. }
    split. { intros _ E'. contradiction. }
    split. { intros pre' v' post' e' _ E' Hp' He'. exfalso. exact (Vn pre' v' post' e' E' He' Hv). }
    split. { reflexivity. } split. { intros; contradiction. } discriminate.
  - split. { intros e' He'. exfalso. eapply Kn; eassumption. }
    split. { intros _ E'. contradiction. }
    split. { intros pre' v' post' e' _ E' Hp' He'. exfalso. exact (Vn pre' v' post' e' E' He' Hv). }
    split. { intros; contradiction. } split. { reflexivity. } auto.
Qed.

(** One value: the same as [insert]. *)
Theorem C06_single_value : forall bld c k v, insert_multiple bld c k [v] = insert bld c k v.
Proof.
  intros bld c k v. unfold insert_multiple, insert. destruct (valid_key k); [|reflexivity|reflexivity].
  cbn [ctry collect_values]. destruct (valid_value v); reflexivity.
Qed.

Example C06_applies :
  fst (insert_multiple true (mkCmdline [] [] 20) (txt "k") [txt "1"; txt "2"; txt "3"]) =
    mkCmdline (txt "k=1,2,3") [] 20 /\
  snd (insert_multiple true (demo true) (txt "k") [txt "1"; txt "a b"; [7]]) = Err NoQuoteSpace /\
  snd (insert_multiple true (demo true) (txt "k") []) = Err (MissingVal (txt "k")).
Proof. vm_compute. auto. Qed.

(** ** C07: builders made with [new] produce printable ASCII. *)
Theorem C07_printable : forall bld cap c0 os,
  cap < 2 ^ 64 -> cmdline_new cap = Ok c0 ->
  as_cstring (run_ops bld c0 os) <> Err NullTerminator /\
  (forall b, as_cstring (run_ops bld c0 os) = Ok b -> Forall (fun x => 32 <= n8 x /\ n8 x <= 126) b).
Proof. exact new_printable. Qed.

Example C07_applies : cmdline_new 128 = Ok (mkCmdline [] [] 128) /\
  exists b, as_cstring (run_ops true (mkCmdline [] [] 128) demo_ops) = Ok b /\ lenN b = 75.
Proof. split; [reflexivity|]. eexists. split; vm_compute; reflexivity. Qed.
(** It does not extend to [try_from], which does not validate its text. *)
Theorem C07_try_from_unvalidated : exists raw c b,
  cmdline_try_from raw 20 = Ok c /\ as_cstring c = Ok b /\ ~ Forall (fun x => 32 <= n8 x /\ n8 x <= 126) b.
Proof.
  exists [97; 7; 233]. do 2 eexists. split; [vm_compute; reflexivity|]. split; [vm_compute; reflexivity|].
  intros H. inversion H as [|? ? _ H']; subst. inversion H' as [|? ? H'' _]; subst.
  destruct H'' as [H'' _]. vm_compute in H''. apply H''. reflexivity.
Qed.

(** ** C08: exactly one NUL, at the end. *)
Theorem C08_one_nul : forall c v, cmdline_to_vec c = Ok v -> exists b, v = b ++ [x00] /\ ~ In x00 b.
Proof. exact one_nul. Qed.
Example C08_applies : cmdline_to_vec (mkCmdline (txt "a") (txt "b") 10) = Ok (utf8 (txt "a -- b") ++ [x00]).
Proof. vm_compute. reflexivity. Qed.

(** ** C09: when serialisation fails. *)
Theorem C09_serialisation_errors : forall bld k c0 os,
  ctor_typed k -> run_ctor k = Ok c0 ->
  let c := run_ops bld c0 os in
  (as_cstring c = Err NoBootArgsInserted <-> boot_args c = [] /\ init_args c <> []) /\
  (as_cstring c = Err NullTerminator <->
     boot_args c <> [] /\ exists raw cap, k = Parse raw cap /\ In 0 raw) /\
  (as_cstring c = Err NoBootArgsInserted \/ as_cstring c = Err NullTerminator \/
   exists b, as_cstring c = Ok b).
Proof.
  intros bld k c0 os Hk E. destruct (as_cstring_errors (run_ops bld c0 os)) as (H1 & _ & H3).
  split; [exact H1|]. split; [now apply nul_exact|exact H3].
Qed.
Example C09_applies :
  run_ctor (Parse [97; 0; 98] 10) = Ok (mkCmdline [97; 0; 98] [] 10) /\
  as_cstring (run_ops true (mkCmdline [97; 0; 98] [] 10) [OpStr (txt "x")]) = Err NullTerminator /\
  as_cstring (run_ops true (mkCmdline [] [] 10) [OpInit (txt "x")]) = Err NoBootArgsInserted.
Proof. vm_compute. auto. Qed.

(** ** C10: try_from splits at the first unquoted separator. *)
Theorem C10_split : forall raw cap c,
  cap < 2 ^ 64 -> lenN (utf8 raw) < 2 ^ 63 ->
  cmdline_try_from raw cap = Ok c ->
  parsed_parts raw (boot_args c) (init_args c) /\ capacity c = cap.
Proof.
  intros raw cap c Hc Hl E. destruct (try_from_cases raw cap Hc Hl) as (b & i & Hp & [(_ & _ & E')|(_ & E')]);
    rewrite E in E'; [|discriminate]. injection E' as ->. auto.
Qed.
(** The specification names exactly one pair of parts for every text. *)
Theorem C10_parts_exist_unique : forall raw,
  (exists b i, parsed_parts raw b i) /\
  (forall b i b' i', parsed_parts raw b i -> parsed_parts raw b' i' -> b = b' /\ i = i').
Proof. intros raw. split; [apply parsed_parts_exist|apply parsed_parts_unique]. Qed.
Example C10_applies :
  cmdline_try_from (txt " a=" ++ [34] ++ txt "x -- y" ++ [34] ++ txt "  --  i -- j ") 40 =
  Ok (mkCmdline (txt "a=" ++ [34] ++ txt "x -- y" ++ [34]) (txt "i -- j") 40).
Proof. vm_compute. reflexivity. Qed.

(** ** C11: try_from fails exactly when the text does not fit. *)
Theorem C11_capacity_exact : forall raw cap boot init,
  cap < 2 ^ 64 -> lenN (utf8 raw) < 2 ^ 63 -> parsed_parts raw boot init ->
  (cap = 0 \/ ~ fits boot init cap -> cmdline_try_from raw cap = Err InvalidCapacity) /\
  (cap <> 0 /\ fits boot init cap -> cmdline_try_from raw cap = Ok (mkCmdline boot init cap)).
Proof.
  intros raw cap boot init Hc Hl Hp. rewrite (try_from_parts raw cap boot init Hc Hl Hp). unfold fits.
  destruct (N.eqb_spec cap 0), (N.leb_spec (lenN (utf8 (full_text boot init)) + 1) cap); split;
    try reflexivity; intros; exfalso; lia.
Qed.
(** [new] refuses capacity 0 and nothing else; the new command line is empty. *)
Theorem C11_new_capacity : forall cap,
  (cmdline_new cap = Err InvalidCapacity <-> cap = 0) /\
  (cap <> 0 -> cmdline_new cap = Ok (mkCmdline [] [] cap)).
Proof.
  intros cap. unfold cmdline_new. destruct (N.eqb_spec cap 0) as [ -> |H].
  - split; [split; reflexivity|]. intros []. reflexivity.
  - split; [split; [discriminate|contradiction]|reflexivity].
Qed.
Example C11_boundary :
  cmdline_try_from (txt " a -- b ") 7 = Ok (mkCmdline (txt "a") (txt "b") 7) /\
  cmdline_try_from (txt " a -- b ") 6 = Err InvalidCapacity.
Proof. vm_compute. auto. Qed.

(** ** C12: the documented format round-trips. *)
Theorem C12_documented_format : forall boot init cap,
  boot <> [] -> init <> [] -> trimmed_of boot boot -> trimmed_of init init ->
  quotes_balanced boot -> dashes_quoted boot -> ~ In 0 boot -> ~ In 0 init ->
  lenN (utf8 (boot ++ txt " -- " ++ init)) + 1 <= cap -> cap < 2 ^ 63 ->
  cmdline_try_from (boot ++ txt " -- " ++ init) cap = Ok (mkCmdline boot init cap) /\
  as_cstring (mkCmdline boot init cap) = Ok (utf8 (boot ++ txt " -- " ++ init)).
Proof.
  intros boot init cap Hb Hi Tb Ti Hq Hd Zb Zi Hf Hc.
  assert (full_text boot init = boot ++ txt " -- " ++ init) as Hft by (destruct init; [contradiction|reflexivity]).
  split.
  - rewrite (try_from_parts _ cap boot init); [| | |now apply documented_parts].
    + rewrite Hft. destruct (N.eqb_spec cap 0) as [->|]; [lia|].
      destruct (N.leb_spec (lenN (utf8 (boot ++ txt " -- " ++ init)) + 1) cap); [reflexivity|lia].
    + change (2 ^ 63) with 9223372036854775808 in Hc. change (2 ^ 64) with 18446744073709551616. lia.
    + lia.
  - rewrite as_cstring_spec. cbn [boot_args init_args]. unfold serialised. rewrite Hft.
    destruct boot as [|b boot]; [contradiction|]. destruct init as [|i init]; [contradiction|].
    destruct (in_dec _ _ _) as [H|H]; [exfalso|reflexivity].
    rewrite <- Hft in H. apply full_text_nul in H. tauto.
Qed.
Example C12_applies : let boot := txt "a=" ++ [34] ++ txt "x--y" ++ [34] in
  trimmed_of boot boot /\ quotes_balanced boot /\ dashes_quoted boot.
Proof.
  cbv zeta. split; [|split].
  - replace (txt "a=" ++ [34] ++ txt "x--y" ++ [34]) with (trim (txt "a=" ++ [34] ++ txt "x--y" ++ [34])) at 2 by reflexivity.
    apply trim_spec.
  - reflexivity.
  - intros i. do 9 (destruct i as [|i]; [intros H Hu; try discriminate H; discriminate Hu|]). intros H. destruct i; discriminate H.
Qed.

(** ** C13: parsing the serialised form again gives the same command line, when the only white
    space of the parsed text is ' '. *)
Theorem C13_reparse : forall raw cap c,
  cap < 2 ^ 64 -> lenN (utf8 raw) < 2 ^ 63 -> (forall x, In x raw -> white x -> x = 32) ->
  cmdline_try_from raw cap = Ok c ->
  cmdline_try_from (full_text (boot_args c) (init_args c)) cap = Ok c /\
  (forall b, as_cstring c = Ok b -> b = utf8 (full_text (boot_args c) (init_args c))).
Proof.
  intros raw cap c Hc Hl Hw E. split; [now apply (reparse_ok raw)|].
  intros b Eb. rewrite as_cstring_spec in Eb. now apply serialised_ok in Eb as (-> & _).
Qed.
Example C13_applies : let raw := txt "  a  b --  c " in
  (forall x, In x raw -> white x -> x = 32) /\
  cmdline_try_from raw 30 = Ok (mkCmdline (txt "a  b") (txt "c") 30).
Proof.
  cbv zeta. split; [|vm_compute; reflexivity]. intros x Hx Hw. apply printable_white; [|exact Hw].
  revert x Hx Hw. assert (Forall printable (txt "  a  b --  c ")) as H by (apply forallb_printable; reflexivity).
  rewrite Forall_forall in H. auto.
Qed.
(** With other white space it is false: "x --<tab> -- i" has boot part "x --", whose serialised
    form "x -- -- i" splits elsewhere. *)
Theorem C13_other_white_space_refuted : exists raw c c',
  cmdline_try_from raw 30 = Ok c /\ as_cstring c = Ok (utf8 (full_text (boot_args c) (init_args c))) /\
  cmdline_try_from (full_text (boot_args c) (init_args c)) 30 = Ok c' /\
  boot_args c' <> boot_args c /\ init_args c' <> init_args c.
Proof.
  exists (txt "x --" ++ [9] ++ txt " -- i"). do 2 eexists.
  split; [vm_compute; reflexivity|]. split; [vm_compute; reflexivity|]. split; [vm_compute; reflexivity|].
  vm_compute. split; congruence.
Qed.

(** ** C14: virtio device text decodes to the device. *)
(** Every device has exactly one canonical argument. *)
Theorem C14_canonical_unique : forall size base irq id,
  exists t, device_argument size base irq id t /\ forall t', device_argument size base irq id t' -> t' = t.
Proof.
  intros size base irq id. pose proof (device_argument_ok size base irq id) as Ht. eexists. split; [exact Ht|].
  intros t' Ht'. eapply device_argument_unique; eassumption.
Qed.
Theorem C14_virtio_text : forall bld c size base irq id c',
  reachable bld c -> run_op bld c (OpVirtio size base irq id) = (c', Ok tt) ->
  exists t, device_argument size base irq id (txt "virtio_mmio.device=" ++ t) /\
    parse_device t = Some (size, base, irq, id) /\
    c' = mkCmdline (add_arg (boot_args c) (txt "virtio_mmio.device=" ++ t)) (init_args c) (capacity c).
Proof.
  intros bld c size base irq id c' Hr E. apply reachable_inv in Hr. cbn [run_op] in E.
  destruct (virtio_spec bld c size base irq id Hr) as (t & H1 & H2 & [(_ & E')|[(_ & _ & E')|(_ & _ & E')]]);
    rewrite E in E'; try discriminate. injection E' as ->. eauto.
Qed.
(** Different devices give different text. *)
Theorem C14_virtio_injective : forall bld c d1 d2 c1 c2,
  reachable bld c ->
  let call d := match d with (size, base, irq, id) => OpVirtio size base irq id end in
  run_op bld c (call d1) = (c1, Ok tt) -> run_op bld c (call d2) = (c2, Ok tt) ->
  boot_args c1 = boot_args c2 -> d1 = d2.
Proof.
  intros bld c [[[s1 b1] i1] n1] [[[s2 b2] i2] n2] c1 c2 Hr. cbv zeta. intros E1 E2 E.
  destruct (C14_virtio_text _ _ _ _ _ _ _ Hr E1) as (t1 & _ & P1 & ->).
  destruct (C14_virtio_text _ _ _ _ _ _ _ Hr E2) as (t2 & _ & P2 & ->).
  cbn [boot_args] in E. assert (t1 = t2) as ->; [|congruence].
  destruct (boot_args c) as [|x r]; cbn [add_arg] in E.
  - now apply app_inv_head in E.
  - apply app_inv_head in E. apply app_inv_head in E. now apply app_inv_head in E.
Qed.
Example C14_applies :
  run_op true (mkCmdline [] [] 60) (OpVirtio 1048576 4096 3 None) =
  (mkCmdline (txt "virtio_mmio.device=1M@0x1000:3") [] 60, Ok tt).
Proof. vm_compute. reflexivity. Qed.

(** ** C15: when virtio device insertion fails. *)
Theorem C15_virtio_errors : forall bld c size base irq id t,
  reachable bld c -> device_argument size base irq id t ->
  let r := snd (run_op bld c (OpVirtio size base irq id)) in
  let room := fits (add_arg (boot_args c) t) (init_args c) (capacity c) in
  (r = Err MmioSize <-> size = 0) /\ (r = Err TooLarge <-> size <> 0 /\ ~ room) /\
  (r = Ok tt <-> size <> 0 /\ room).
Proof.
  intros bld c size base irq id t0 Hr H0. apply reachable_inv in Hr. cbn [run_op].
  destruct (virtio_spec bld c size base irq id Hr) as (t & H1 & _ & H).
  assert (t0 = txt "virtio_mmio.device=" ++ t) as -> by (eapply device_argument_unique; eassumption).
  cbv zeta in *. destruct H as [(H2 & ->)|[(H2 & H3 & ->)|(H2 & H3 & ->)]]; cbn [snd];
    intuition congruence.
Qed.
Example C15_applies :
  snd (run_op true (mkCmdline [] [] 60) (OpVirtio 0 4096 3 None)) = Err MmioSize /\
  snd (run_op true (mkCmdline [] [] 31) (OpVirtio 1048576 4096 3 None)) = Ok tt /\
  snd (run_op true (mkCmdline [] [] 30) (OpVirtio 1048576 4096 3 None)) = Err TooLarge /\
  fst (run_op true (mkCmdline [] [] 60) (OpVirtio 1048577 4096 3 (Some 7))) =
    mkCmdline (txt "virtio_mmio.device=1048577@0x1000:3:7") [] 60.
Proof. vm_compute. auto. Qed.

(** ** C16: no overflow, no panic; debug and release builds agree. *)
Theorem C16_no_panic : forall bld bld' c o,
  reachable bld c ->
  run_op bld c o = run_op bld' c o /\ forall p, snd (run_op bld c o) <> Panic p.
Proof. intros bld bld' c o Hr. apply no_panic_same. eapply reachable_inv; exact Hr. Qed.
Theorem C16_ctor_no_panic : forall k p, ctor_typed k -> run_ctor k <> Panic p.
Proof.
  intros [cap|raw cap] p; cbn [run_ctor ctor_typed].
  - unfold cmdline_new. destruct (cap =? 0); discriminate.
  - intros [Hc Hl]. destruct (try_from_cases raw cap Hc Hl) as (b & i & _ & [(_ & _ & ->)|(_ & ->)]); discriminate.
Qed.
(** The capacity may be as large as usize::MAX. *)
Example C16_applies : exists c, run_ctor (New (2 ^ 64 - 1)) = Ok c /\ ctor_typed (New (2 ^ 64 - 1)) /\
  snd (run_op true c (OpStr (txt "a"))) = Ok tt.
Proof. eexists. split; [vm_compute; reflexivity|]. split; vm_compute; reflexivity. Qed.

(** ** C17: equality is an equivalence determined by the serialised form. *)
Theorem C17_equivalence : forall a b c,
  cmdline_eq a a = true /\
  (cmdline_eq a b = true -> cmdline_eq b a = true) /\
  (cmdline_eq a b = true -> cmdline_eq b c = true -> cmdline_eq a c = true).
Proof. intros a b c. rewrite !cmdline_eq_iff. intuition congruence. Qed.
Theorem C17_serialised_form : forall a b,
  (cmdline_eq a b = true <-> as_cstring a = as_cstring b) /\
  (forall x y, as_cstring a = Ok x -> as_cstring b = Ok y -> (cmdline_eq a b = true <-> x = y)) /\
  (forall cap cap', boot_args a = boot_args b -> init_args a = init_args b ->
     capacity a = cap -> capacity b = cap' -> cmdline_eq a b = true).
Proof.
  intros a b. split; [apply cmdline_eq_iff|]. split.
  - intros x y Ea Eb. rewrite cmdline_eq_iff, Ea, Eb. split; congruence.
  - intros cap cap' H1 H2 _ _. apply cmdline_eq_iff. rewrite !as_cstring_spec, H1, H2. reflexivity.
Qed.
(** Command lines that cannot be serialised are equal whatever they contain. *)
Theorem C17_unserialisable_conflated : exists a b,
  reachable true a /\ reachable true b /\ init_args a <> init_args b /\ cmdline_eq a b = true.
Proof.
  exists (run_ops true (mkCmdline [] [] 20) [OpInit (txt "x")]), (run_ops true (mkCmdline [] [] 20) [OpInit (txt "y")]).
  split; [exists (New 20), (mkCmdline [] [] 20), [OpInit (txt "x")]; repeat split|].
  split; [exists (New 20), (mkCmdline [] [] 20), [OpInit (txt "y")]; repeat split|].
  vm_compute. split; congruence.
Qed.
Example C17_applies :
  cmdline_eq (mkCmdline (txt "a") (txt "b") 10) (mkCmdline (txt "a") (txt "b") 99) = true /\
  cmdline_eq (mkCmdline (txt "a") (txt "b") 10) (mkCmdline (txt "a") [] 10) = false.
Proof. vm_compute. auto. Qed.
