(** * Props_Driver: Linux creates the virtio devices the VMM added (C106).

    [linux_devices] (SpecDriver.v) is what Linux's virtio-mmio driver makes of a command line. *)
From Coq Require Import ZArith.
From Verif Require Import Base Base_proofs Io Mem SpecMem Mem_proofs Text Cmdline SpecCmdline Text_proofs Cmdline_proofs Cmdline_proofs2
  Cmdline_proofs3 Loader Props_Cmdline Props_Loader SpecKernel Kernel_proofs Props_Kernel SpecDriver.
Local Open Scope list_scope.

(** ** Numbers *)
Lemma kdigits_mod base s : forall acc, kdigits base (acc mod 2 ^ 64) s =
  let (v, r) := read_digits (kdigit base) base acc s in (v mod 2 ^ 64, r).
Proof.
  induction s as [|c r IH]; intros acc; cbn [kdigits read_digits]; [reflexivity|].
  destruct (kdigit base c) as [d|]; [|reflexivity].
  rewrite <- IH. f_equal. rewrite <- (N.add_mod_idemp_l (acc mod 2 ^ 64 * base)), N.mul_mod_idemp_l, N.add_mod_idemp_l by discriminate. reflexivity.
Qed.

Lemma kdigits_number base n s rest : n < 2 ^ 64 -> read_number (kdigit base) base s = Some (n, rest) -> kdigits base 0 s = (n, rest).
Proof.
  intros Hn H. pose proof (kdigits_mod base s 0) as K. change (0 mod 2 ^ 64) with 0 in K. rewrite K.
  unfold read_number in H. destruct s as [|c r]; [discriminate|]. destruct (kdigit base c); [|discriminate].
  destruct (read_digits (kdigit base) base 0 (c :: r)) as [v q]. injection H as -> ->. rewrite N.mod_small by exact Hn. reflexivity.
Qed.

Lemma kdigit_char base d : d < base -> base <= 16 -> kdigit base (digit_char d) = Some d.
Proof.
  intros H1 H2. assert (H : d < 16) by lia. clear H2.
  assert (C : kdigit 16 (digit_char d) = Some d).
  { assert (F : forallb (fun d => match kdigit 16 (digit_char d) with Some x => x =? d | None => false end) [0;1;2;3;4;5;6;7;8;9;10;11;12;13;14;15] = true)
      by reflexivity.
    rewrite forallb_forall in F. specialize (F d). destruct (kdigit 16 (digit_char d)) as [x|].
    - f_equal. apply N.eqb_eq. apply F. cbn [In]. lia.
    - exfalso. assert (false = true); [|discriminate]. apply F. cbn [In]. lia. }
  unfold kdigit in *. destruct (if isdigit (digit_char d) then _ else _) as [x|]; [|discriminate].
  destruct (N.ltb_spec x 16); [|discriminate]. injection C as ->. destruct (N.ltb_spec d base); [reflexivity|lia].
Qed.

Lemma kdec n rest : n < 2 ^ 64 -> (forall c r, rest = c :: r -> kdigit 10 c = None) -> kdigits 10 0 (fmt_dec n ++ rest) = (n, rest).
Proof.
  intros Hn Hr. apply kdigits_number; [exact Hn|]. unfold fmt_dec. apply fmt_read; [lia|lia| |exact Hr].
  intros d Hd. apply kdigit_char; lia.
Qed.
Lemma khex n rest : n < 2 ^ 64 -> (forall c r, rest = c :: r -> kdigit 16 c = None) -> kdigits 16 0 (fmt_hex n ++ rest) = (n, rest).
Proof.
  intros Hn Hr. apply kdigits_number; [exact Hn|]. unfold fmt_hex. apply fmt_read; [lia|lia| |exact Hr].
  intros d Hd. apply kdigit_char; lia.
Qed.

(** The first character. *)
Lemma fmt_first base n : 2 <= base -> base <= 16 ->
  exists d r, d < base /\ digits base (S (N.size_nat n)) n [] = digit_char d :: r.
Proof.
  intros H1 H2. destruct (fmt_chars base n H1 H2) as [F Ne]. destruct (digits base (S (N.size_nat n)) n []) as [|c r]; [contradiction|].
  inversion F as [|? ? (d & Hd & ->) _]; subst. exists d, r. split; [exact Hd|reflexivity].
Qed.
Lemma dec_first n : exists d r, d < 10 /\ fmt_dec n = digit_char d :: r.
Proof. apply fmt_first; lia. Qed.
Lemma hex_first n : exists d r, d < 16 /\ fmt_hex n = digit_char d :: r.
Proof. apply fmt_first; lia. Qed.
Lemma digit_isdigit d : d < 10 -> isdigit (digit_char d) = true.
Proof. intros H. unfold isdigit, digit_char. destruct (N.ltb_spec d 10); lia. Qed.
Lemma isdigit_plain c : isdigit c = true -> kspace c = false /\ c <> 45.
Proof. unfold isdigit, kspace. lia. Qed.

Lemma conversion_digit sign num s c r : s = c :: r -> isdigit c = true -> conversion sign num s = Some (num s).
Proof.
  intros -> D. destruct (isdigit_plain c D) as [K M]. unfold conversion. cbn [skip_spaces]. rewrite K.
  destruct (N.eq_dec c 45) as [->|_]; [contradiction|].
  assert (X : forall (A : Type) (a b : A), match c with 45 => a | _ => b end = b).
  { intros A a b. destruct c as [|p]; [reflexivity|]. do 6 (destruct p as [p|p|]; try reflexivity). contradiction. }
  destruct r as [|c2 r].
  - rewrite D. destruct c as [|p]; [reflexivity|]. do 6 (destruct p as [p|p|]; try reflexivity).
  - rewrite D. destruct c as [|p]; [reflexivity|]. do 6 (destruct p as [p|p|]; try reflexivity). contradiction.
Qed.

(** A positive decimal number without prefix is read in base 10. *)
Lemma strtoull_dec n rest : 0 < n < 2 ^ 64 -> (forall c r, rest = c :: r -> kdigit 10 c = None) -> strtoull (fmt_dec n ++ rest) = (n, rest).
Proof.
  intros [H0 Hn] Hr. unfold strtoull.
  destruct (digits_head 10 (S (N.size_nat n)) ltac:(lia) ltac:(lia) n [] (size_nat_bound n) ltac:(lia)) as (c & r & E & Hc).
  assert (R : radix (fmt_dec n ++ rest) = (10, fmt_dec n ++ rest)).
  { unfold fmt_dec. rewrite E. cbn [app]. unfold radix. destruct c as [|p]; [reflexivity|].
    do 6 (destruct p as [p|p|]; try reflexivity). contradiction. }
  rewrite R. apply kdec; assumption.
Qed.
(** "0x" and hexadecimal digits are read in base 16. *)
Lemma strtoull_hex n rest : n < 2 ^ 64 -> (forall c r, rest = c :: r -> kdigit 16 c = None) ->
  strtoull (48 :: 120 :: fmt_hex n ++ rest) = (n, rest).
Proof.
  intros Hn Hr. unfold strtoull. destruct (hex_first n) as (d & r & Hd & E).
  assert (R : radix (48 :: 120 :: fmt_hex n ++ rest) = (16, fmt_hex n ++ rest)).
  { rewrite E. cbn [app radix tl]. rewrite (kdigit_char 16 d Hd (N.le_refl _)). reflexivity. }
  rewrite R. apply khex; assumption.
Qed.

Lemma memparse_size size rest : 0 < size < 2 ^ 64 ->
  (forall c r, rest = c :: r -> kdigit 10 c = None /\ suffix_bits c = None) -> memparse (guestusize_to_str size ++ rest) = (size, rest).
Proof.
  intros Hs Hr. destruct (size_str_form size) as (v & mul & suf & -> & Hv & C). unfold memparse.
  assert (Pv : 0 < v < 2 ^ 64).
  { destruct C as [[_ ->]|[[_ ->]|[[_ ->]|[_ ->]]]]; nia. }
  rewrite <- app_assoc, (strtoull_dec v (suf ++ rest) Pv).
  - destruct C as [[-> ->]|[[-> ->]|[[-> ->]|[-> ->]]]]; cbn [app].
    + change (suffix_bits 71) with (Some 30). cbn iota beta. change (2 ^ 30) with 1073741824. rewrite Hv, N.mod_small by apply Hs. reflexivity.
    + change (suffix_bits 77) with (Some 20). cbn iota beta. change (2 ^ 20) with 1048576. rewrite Hv, N.mod_small by apply Hs. reflexivity.
    + change (suffix_bits 75) with (Some 10). cbn iota beta. change (2 ^ 10) with 1024. rewrite Hv, N.mod_small by apply Hs. reflexivity.
    + rewrite N.mul_1_r in Hv. subst v. destruct rest as [|c r]; [reflexivity|]. rewrite (proj2 (Hr c r eq_refl)). reflexivity.
  - intros c r E. destruct C as [[-> _]|[[-> _]|[[-> _]|[-> _]]]]; cbn [app] in E;
      try (injection E as <- _; reflexivity). exact (proj1 (Hr c r E)).
Qed.

(** ** One parameter *)
Definition asked_id (next : Z) (id : option N) : Z := match id with Some i => int_of i | None => next end.

Lemma scan_device size base irq id : request_typed (size, base, irq, id) ->
  scan (txt "@0x" ++ fmt_hex base ++ txt ":" ++ fmt_dec irq ++ match id with Some i => txt ":" ++ fmt_dec i | None => [] end) =
  Some (base, irq, match id with Some i => Some (int_of i) | None => None end, []).
Proof.
  intros (_ & Hb & Hi & Hd).
  assert (P32 : 2 ^ 32 < 2 ^ 64) by reflexivity.
  change (txt "@0x") with [64; 48; 120]. change (txt ":") with [58]. cbn [app scan].
  unfold conv_lli. rewrite (conversion_digit true strtoull _ 48 _ eq_refl eq_refl).
  rewrite strtoull_hex; [|exact Hb|intros c r [= <- _]; reflexivity].
  destruct (dec_first irq) as (d & r & Ld & E).
  assert (U : forall rest, (forall c r, rest = c :: r -> kdigit 10 c = None) -> conv_u (fmt_dec irq ++ rest) = Some (irq, rest)).
  { intros rest Hr. unfold conv_u. rewrite (conversion_digit false (kdigits 10 0) (fmt_dec irq ++ rest) (digit_char d) (r ++ rest)).
    - rewrite kdec; [reflexivity|lia|exact Hr].
    - rewrite E. reflexivity.
    - exact (digit_isdigit d Ld). }
  destruct id as [i|].
  - rewrite U by (intros c q [= <- _]; reflexivity). cbn [app].
    destruct (dec_first i) as (d2 & r2 & Ld2 & E2).
    unfold conv_d. rewrite (conversion_digit true (kdigits 10 0) (fmt_dec i) (digit_char d2) r2 E2 (digit_isdigit d2 Ld2)).
    pose proof (kdec i [] ltac:(lia) ltac:(discriminate)) as K. rewrite app_nil_r in K. rewrite K.
    rewrite N.mod_small by exact Hi. reflexivity.
  - rewrite U by discriminate. rewrite N.mod_small by exact Hi. reflexivity.
Qed.

Lemma set_device next size base irq id : 0 < size -> request_typed (size, base, irq, id) ->
  vm_cmdline_set next (device_text size base irq id) =
  let n := asked_id next id in
  if irq =? 0 then (n, None) else (next_int n, Some (mkDevice base ((base + size + (2 ^ 64 - 1)) mod 2 ^ 64) irq n)).
Proof.
  intros H0 T. unfold vm_cmdline_set, device_text. rewrite memparse_size.
  - rewrite (scan_device size base irq id T). unfold asked_id. destruct id as [i|]; reflexivity.
  - split; [exact H0|apply T].
  - change (txt "@0x") with [64; 48; 120]. intros c r [= <- _]. split; reflexivity.
Qed.

(** ** A history *)
Lemma is_driver_self : is_driver (txt "virtio_mmio.device") = true.
Proof. reflexivity. Qed.
Lemma is_driver_false n : ~ names_driver n -> is_driver n = false.
Proof. unfold names_driver, is_driver. intros H. destruct (list_eq_dec N.eq_dec (plain_name n) (txt "virtio_mmio.device")); [contradiction|reflexivity]. Qed.
Lemma devices_skip p : (forall x, In x p -> ~ names_driver (fst x)) -> forall next ps, devices_from next (p ++ ps) = devices_from next ps.
Proof.
  induction p as [|[n v] p IH]; intros H next ps; [reflexivity|]. cbn [app devices_from].
  rewrite (is_driver_false n) by (apply (H (n, v)); left; reflexivity). apply IH. intros x Hx. apply H. right; exact Hx.
Qed.

Lemma adds_tells bld c os qs c' : adds bld c os qs c' -> Inv c -> Forall request_typed qs ->
  exists ps is, tells bld c os ps is c' /\ forall next, devices_from next ps = created next qs.
Proof.
  induction 1 as [c|c o os qs c1 e c' R A IH|c size base irq id os qs c1 c' R A IH|c o os p qs c1 c' R C F A IH|c s t os qs c1 c' R T A IH];
    intros HI HT.
  - exists [], []. split; [constructor|reflexivity].
  - pose proof (run_op_inv bld c o HI) as [I1 _]. rewrite R in I1. cbn [fst] in I1.
    destruct (IH I1 HT) as (ps & is & Te & D). exists ps, is. split; [eapply te_rejected; eassumption|exact D].
  - inversion HT as [|? ? Tq Tqs]; subst.
    pose proof (run_op_inv bld c (OpVirtio size base irq id) HI) as [I1 _]. rewrite R in I1. cbn [fst] in I1.
    destruct (IH I1 Tqs) as (ps & is & Te & D).
    exists ([(txt "virtio_mmio.device", Some (device_text size base irq id))] ++ ps), is. split.
    + exact (te_boot bld c (OpVirtio size base irq id) os _ ps is c1 c' R (co_virtio size base irq id _ (device_argument_ok size base irq id)) Te).
    + assert (N0 : 0 < size).
      { cbn [run_op] in R. destruct (virtio_cases bld c size base irq id HI) as [[_ E]|[(_ & _ & E)|(H & _)]]; [| |lia];
          rewrite E in R; discriminate. }
      intros next. cbn [app devices_from]. rewrite is_driver_self, (set_device next size base irq id N0 Tq). cbn [created]. unfold asked_id.
      destruct (irq =? 0); cbn beta iota zeta; rewrite D; reflexivity.
  - pose proof (run_op_inv bld c o HI) as [I1 _]. rewrite R in I1. cbn [fst] in I1.
    destruct (IH I1 HT) as (ps & is & Te & D). exists (p ++ ps), is. split; [exact (te_boot bld c o os p ps is c1 c' R C Te)|].
    intros next. rewrite (devices_skip p F). apply D.
  - pose proof (run_op_inv bld c (OpInit s) HI) as [I1 _]. rewrite R in I1. cbn [fst] in I1.
    destruct (IH I1 HT) as (ps & is & Te & D). exists ps, (t :: is). split; [exact (te_init bld c s t os ps is c1 c' R T Te)|exact D].
Qed.

Lemma created_expected qs : Forall sensible qs -> forall next, ids_fit next qs -> created (Z.of_N next) qs = expected next qs.
Proof.
  induction 1 as [|[[[size base] irq] id] qs (H0 & Hb & Hi & Hd) _ IH]; intros next HF; [reflexivity|].
  cbn [created expected ids_fit] in *. destruct HF as [F1 F2].
  destruct (N.eqb_spec irq 0) as [->|_]; [lia|].
  assert (En : match id with Some i => int_of i | None => Z.of_N next end = Z.of_N (match id with Some i => i | None => next end)).
  { destruct id as [i|]; [|reflexivity]. unfold int_of. change (2 ^ 31) with 2147483648 in *. change (2 ^ 32) with 4294967296 in *.
    rewrite N.mod_small by lia. destruct (N.ltb_spec i 2147483648); [reflexivity|lia]. }
  rewrite En. set (n := match id with Some i => i | None => next end) in *.
  assert (Nx : next_int (Z.of_N n) = Z.of_N (n + 1)).
  { unfold next_int. change (2 ^ 31) with 2147483648 in *. change (2 ^ 31 - 1)%Z with 2147483647%Z.
    destruct (Z.eqb_spec (Z.of_N n) 2147483647); lia. }
  rewrite Nx, (IH (n + 1) F2). f_equal. f_equal.
  change (2 ^ 64) with 18446744073709551616 in *.
  replace (base + size + (18446744073709551616 - 1)) with ((base + size - 1) + 1 * 18446744073709551616) by lia.
  rewrite N.mod_add by discriminate. apply N.mod_small. lia.
Qed.
Lemma sensible_typed q : sensible q -> request_typed q.
Proof.
  destruct q as [[[size base] irq] id]. cbn [sensible request_typed]. intros (H0 & Hb & Hi & Hd). change (2 ^ 64) with 18446744073709551616 in *.
  split; [|split; [|split]]; [lia|lia|apply Hi|].
  destruct id as [i|]; [|exact I]. assert (2 ^ 31 - 1 < 2 ^ 32) by reflexivity. lia.
Qed.

(** ** C106 *)
(** Whatever calls were made on a new builder (in any order, some accepted, some rejected), a Linux kernel given the text it ends with creates
    one device per accepted device request, in that order, with the registers, interrupt and id that were asked for.  Requirement: the
    requests are inside the address space, have an interrupt, ids that are positive [int]s, and no other call names the driver. *)
Theorem C106_devices : forall bld cap c0 os qs c' s,
  cap < 2 ^ 64 -> cmdline_new cap = Ok c0 -> adds bld c0 os qs c' -> as_cstring c' = Ok s ->
  Forall sensible qs -> ids_fit 0 qs ->
  linux_devices (map n8 s) = expected 0 qs.
Proof.
  intros bld cap c0 os qs c' s Hc Ec A Es Hs Hf.
  destruct (new_inv cap c0 Hc Ec) as (HI & _).
  assert (HT : Forall request_typed qs) by (eapply Forall_impl; [|exact Hs]; exact sensible_typed).
  destruct (adds_tells bld c0 os qs c' A HI HT) as (ps & is & T & D).
  unfold linux_devices. rewrite (C76_kernel_sees_inserted_new bld cap c0 os ps is c' s Hc Ec T Es). cbn [fst].
  rewrite D. exact (created_expected qs Hs 0 Hf).
Qed.

(** The same without any requirement on the requests: what Linux makes of them, exactly. *)
Theorem C106_devices_any : forall bld cap c0 os qs c' s,
  cap < 2 ^ 64 -> cmdline_new cap = Ok c0 -> adds bld c0 os qs c' -> as_cstring c' = Ok s -> Forall request_typed qs ->
  linux_devices (map n8 s) = created 0 qs.
Proof.
  intros bld cap c0 os qs c' s Hc Ec A Es HT.
  destruct (new_inv cap c0 Hc Ec) as (HI & _).
  destruct (adds_tells bld c0 os qs c' A HI HT) as (ps & is & T & D).
  unfold linux_devices. rewrite (C76_kernel_sees_inserted_new bld cap c0 os ps is c' s Hc Ec T Es). apply D.
Qed.

(** In guest memory: what [load_cmdline] leaves at [addr]. *)
Theorem C106_devices_in_memory : forall bld be cap c0 os qs c' m addr m',
  cap < 2 ^ 64 -> cmdline_new cap = Ok c0 -> adds bld c0 os qs c' -> Forall sensible qs -> ids_fit 0 qs ->
  wf_mem m = true -> load_cmdline bld be m addr c' = (m', Ok tt) ->
  exists s, holds_at m' addr (s ++ [x00]) /\ ~ In x00 s /\ linux_devices (map n8 s) = expected 0 qs.
Proof.
  intros bld be cap c0 os qs c' m addr m' Hc Ec A Hs Hf W L.
  destruct (C18_load_cmdline_writes bld be m addr c' m' W L) as (s & Es & Z & _ & H & _).
  exists s. split; [exact H|]. split; [exact Z|]. exact (C106_devices bld cap c0 os qs c' s Hc Ec A Es Hs Hf).
Qed.

(** Every history of calls the kernel understands, none of which names the driver except by adding a device, is of that kind. *)
Theorem C106_every_history : forall bld cap c0 os,
  cap < 2 ^ 64 -> cmdline_new cap = Ok c0 -> Forall well_behaved os -> Forall no_rival os ->
  exists qs, adds bld c0 os qs (run_ops bld c0 os).
Proof.
  intros bld cap c0 os Hc Ec. destruct (new_inv cap c0 Hc Ec) as (HI & _). clear Hc Ec. revert c0 HI.
  induction os as [|o os IH]; intros c HI W R; [exists []; constructor|].
  inversion W as [|? ? Wo Ws]; subst. inversion R as [|? ? Ro Rs]; subst.
  unfold run_ops in *. cbn [fold_left]. destruct (run_op_inv bld c o HI) as [I1 _].
  destruct (IH _ I1 Ws Rs) as (qs & A). destruct (run_op bld c o) as [c1 r] eqn:E. cbn [fst] in *.
  assert (Rc : r = Ok tt \/ exists e, r = Err e).
  { destruct (run_op_cases bld c o HI) as [(e & E')|[(t & _ & _ & _ & E')|(t & _ & _ & _ & E')]]; rewrite E' in E; injection E as <- <-;
      [right; exists e; reflexivity|left; reflexivity|left; reflexivity]. }
  destruct Rc as [->|[e ->]]; [|exists qs; exact (ad_rejected bld c o os qs c1 e _ E A)].
  destruct o as [k v|k vs|x|x|size base irq id]; cbn [well_behaved no_rival] in Wo, Ro.
  - destruct Wo as (Nk & Qk & b & B). pose proof (co_insert k v b Nk Qk B) as C. exists qs. exact (ad_other bld c _ os _ qs c1 _ E C (Ro _ C) A).
  - destruct Wo as (Nk & Qk & Qv). pose proof (co_multiple k vs Nk Qk Qv) as C. exists qs. exact (ad_other bld c _ os _ qs c1 _ E C (Ro _ C) A).
  - destruct Wo as (t & ps & Tr & Sa). pose proof (co_str x t ps Tr Sa) as C. exists qs. exact (ad_other bld c _ os _ qs c1 _ E C (Ro _ C) A).
  - exists qs. exact (ad_init bld c x (trim x) os qs c1 _ E (trim_spec x) A).
  - exists ((size, base, irq, id) :: qs). exact (ad_device bld c size base irq id os qs c1 _ E A).
Qed.

(** ** Cases *)
(** Three devices between other arguments; a request of size 0 is rejected. *)
Definition three_devices : list op :=
  [OpVirtio 4096 0xd0000000 5 None; OpInsert (txt "console") (txt "ttyS0"); OpVirtio 0 0x1000 6 None; OpVirtio 1000 0xd0001000 6 (Some 7);
   OpInit (txt "single"); OpVirtio (2 * 1024 * 1024) 0xd0200000 7 None].
Definition three_requests : list request :=
  [(4096, 0xd0000000, 5, None); (1000, 0xd0001000, 6, Some 7); (2 * 1024 * 1024, 0xd0200000, 7, None)].
Example C106_applies : forall bld, exists c0 c' s,
  cmdline_new 200 = Ok c0 /\ adds bld c0 three_devices three_requests c' /\ as_cstring c' = Ok s /\
  Forall sensible three_requests /\ ids_fit 0 three_requests /\
  s = utf8 (txt "virtio_mmio.device=4K@0xd0000000:5 console=ttyS0 virtio_mmio.device=1000@0xd0001000:6:7 virtio_mmio.device=2M@0xd0200000:7 -- single") /\
  linux_devices (map n8 s) =
    [mkDevice 0xd0000000 0xd0000fff 5 0; mkDevice 0xd0001000 0xd00013e7 6 7; mkDevice 0xd0200000 0xd03fffff 7 8].
Proof.
  intros bld. exists (mkCmdline [] [] 200). eexists. eexists.
  assert (NI : forall (x : N) l, count_occ N.eq_dec l x = O -> ~ In x l) by (intros x l; apply count_occ_not_In).
  split; [reflexivity|]. split; [|split; [|split; [|split; [|split]]]].
  - unfold three_devices, three_requests.
    eapply ad_device; [vm_compute; reflexivity|].
    eapply ad_other; [vm_compute; reflexivity|apply co_insert; [discriminate|apply NI; reflexivity|constructor; apply NI; reflexivity]| |].
    { intros x [<-|[]]. discriminate. }
    eapply ad_rejected; [vm_compute; reflexivity|].
    eapply ad_device; [vm_compute; reflexivity|].
    eapply ad_init; [vm_compute; reflexivity|apply trim_spec|].
    eapply ad_device; [vm_compute; reflexivity|].
    apply ad_done.
  - vm_compute. reflexivity.
  - unfold three_requests. repeat apply Forall_cons; try apply Forall_nil; cbn [sensible]; (split; [lia|]; split; [lia|]; split; [lia|]); try exact I. lia.
  - cbn [ids_fit three_requests]. lia.
  - vm_compute. reflexivity.
  - vm_compute. reflexivity.
Qed.

(** What [sensible] excludes is accepted by the builder all the same. *)
Definition linux_after (os : list op) : option (list (outcome cerror unit) * list device) :=
  match cmdline_new 200 with
  | Ok c0 => match as_cstring (run_ops true c0 os) with
             | Ok s => Some (map (fun o => snd (run_op true c0 o)) os, linux_devices (map n8 s))
             | _ => None
             end
  | _ => None
  end.
(** Interrupt 0: accepted, refused by Linux. *)
Example C106_interrupt_zero : linux_after [OpVirtio 4096 0xd0000000 0 None] = Some ([Ok tt], []).
Proof. vm_compute. reflexivity. Qed.
(** An id from 2^31 on: negative in Linux; 2^32-1 is -1, which the platform bus takes for "no id". *)
Example C106_large_id : linux_after [OpVirtio 4096 0xd0000000 5 (Some 0xffffffff); OpVirtio 4096 0xd0001000 6 (Some 0x80000000)] =
  Some ([Ok tt; Ok tt], [mkDevice 0xd0000000 0xd0000fff 5 (-1); mkDevice 0xd0001000 0xd0001fff 6 (- 2147483648)]).
Proof. vm_compute. reflexivity. Qed.
(** Past the end of the address space: the registers end before they begin. *)
Example C106_past_the_end : linux_after [OpVirtio 8192 0xfffffffffffff000 5 None] =
  Some ([Ok tt], [mkDevice 0xfffffffffffff000 0xfff 5 0]).
Proof. vm_compute. reflexivity. Qed.
(** Two requests may give the same id (the second device cannot be registered): the builder does not look. *)
Example C106_same_id : linux_after [OpVirtio 4096 0xd0000000 5 (Some 1); OpVirtio 4096 0xd0001000 6 (Some 0); OpVirtio 4096 0xd0002000 7 None] =
  Some ([Ok tt; Ok tt; Ok tt], [mkDevice 0xd0000000 0xd0000fff 5 1; mkDevice 0xd0001000 0xd0001fff 6 0; mkDevice 0xd0002000 0xd0002fff 7 1]).
Proof. vm_compute. reflexivity. Qed.
(** And a text that names the driver is another way in: its devices are created too. *)
Example C106_rival : linux_after [OpInsert (txt "virtio-mmio.device") (txt "0x1000@4096:9:3"); OpVirtio 4096 0xd0000000 5 None] =
  Some ([Ok tt; Ok tt], [mkDevice 4096 8191 9 3; mkDevice 0xd0000000 0xd0000fff 5 4]).
Proof. vm_compute. reflexivity. Qed.
