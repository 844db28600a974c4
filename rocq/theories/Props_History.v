(** * Props_History: property C79.

    The crate's command line builder and the rules of SpecHistory tell the same story, for every
    constructor call followed by any builder calls. *)
From Verif Require Import Base Base_proofs Text Cmdline SpecCmdline Text_proofs
  Cmdline_proofs Cmdline_proofs2 Cmdline_proofs3 Props_Cmdline SpecHistory.

(** What the crate does in such a history ([None]: a call panicked). *)
Fixpoint results (bld : build) (c : cmdline) (os : list op) : list (outcome cerror unit) :=
  match os with
  | [] => []
  | o :: os' => snd (run_op bld c o) :: results bld (fst (run_op bld c o)) os'
  end.
Definition crate_story (bld : build) (k : ctor) (os : list op) : option story :=
  match run_ctor k with
  | Err e => Some (NoBuilder e)
  | Ok c0 => Some (Built (results bld c0 os) (as_cstring (run_ops bld c0 os)))
  | Panic _ => None
  end.

Lemma run_ops_snoc bld c os o : run_ops bld c (os ++ [o]) = fst (run_op bld (run_ops bld c os) o).
Proof. unfold run_ops. now rewrite fold_left_app. Qed.
Lemma reachable_step bld c o : reachable bld c -> reachable bld (fst (run_op bld c o)).
Proof. intros (k & c0 & os & H1 & H2 & ->). exists k, c0, (os ++ [o]). now rewrite run_ops_snoc. Qed.
Lemma printable_dec t : Forall printable t \/ ~ Forall printable t.
Proof.
  induction t as [|c t IH]; [left; constructor|].
  destruct (N.le_gt_cases 32 c); [|right; intros P; inversion P as [|? ? Q _]; unfold printable in Q; lia].
  destruct (N.le_gt_cases c 126); [|right; intros P; inversion P as [|? ? Q _]; unfold printable in Q; lia].
  destruct IH as [IH|IH]; [left; constructor; [split; assumption|exact IH]|right; intros P; inversion P; contradiction].
Qed.
Lemma fits_dec b i cap : fits b i cap \/ ~ fits b i cap.
Proof. unfold fits. destruct (N.le_gt_cases (lenN (utf8 (full_text b i)) + 1) cap); [auto|right; lia]. Qed.
Lemma fits_sep_dec b i cap : fits_with_sep b i cap \/ ~ fits_with_sep b i cap.
Proof. unfold fits_with_sep. destruct (N.le_gt_cases (lenN (utf8 (b ++ txt " -- " ++ i)) + 1) cap); [auto|right; lia]. Qed.
Lemma values_split vs : Forall good_value vs \/
  exists pre v post e, vs = pre ++ v :: post /\ Forall good_value pre /\ value_error v e.
Proof.
  induction vs as [|v vs IH]; [left; constructor|].
  destruct (proj2 (C05_cases_exhaustive v v)) as [G|(e & E)].
  - destruct IH as [IH|(pre & w & post & e & -> & P & E)]; [left; now constructor|].
    right. exists (v :: pre), w, post, e. split; [reflexivity|]. split; [now constructor|exact E].
  - right. exists [], v, vs, e. split; [reflexivity|]. split; [constructor|exact E].
Qed.
Lemma trimmed_exists s : exists t, trimmed_of s t.
Proof. exists (trim s). apply trim_spec. Qed.

(** One call obeys the rules. *)
Lemma call_obeys bld c o c' r : reachable bld c -> run_op bld c o = (c', r) ->
  call_says (capacity c) (boot_args c) (init_args c) o r (boot_args c') (init_args c').
Proof.
  intros Hr H. destruct o as [k v|k vs|s|s|size base irq id]; cbn [run_op] in H.
  - destruct (C05_insert bld c k v Hr) as (A1 & A2 & A3 & A4 & _). cbv zeta in A3, A4. rewrite H in A1, A2, A3, A4.
    destruct (C05_cases_exhaustive k v) as ([Gk|(e & Ek)] & [Gv|(e' & Ev)]).
    + destruct (fits_dec (add_arg (boot_args c) (k ++ txt "=" ++ v)) (init_args c) (capacity c)) as [F|F].
      * specialize (A4 Gk Gv F). injection A4 as -> ->. now apply ins_ok.
      * specialize (A3 Gk Gv F). injection A3 as -> ->. now apply ins_large.
    + specialize (A2 _ Gk Ev). injection A2 as -> ->. now apply ins_value.
    + specialize (A1 _ Ek). injection A1 as -> ->. now apply ins_key.
    + specialize (A1 _ Ek). injection A1 as -> ->. now apply ins_key.
  - destruct (C06_insert_multiple bld c k vs Hr) as (A1 & A2 & A3 & A4 & A5 & _). cbv zeta in A4, A5. rewrite H in A1, A2, A3, A4, A5.
    destruct (proj1 (C05_cases_exhaustive k k)) as [Gk|(e & Ek)].
    2:{ specialize (A1 _ Ek). injection A1 as -> ->. now apply mul_key. }
    destruct vs as [|v0 vs0] eqn:Evs.
    { specialize (A2 Gk eq_refl). injection A2 as -> ->. now apply mul_none. }
    rewrite <- Evs in *. assert (Hne : vs <> []) by (rewrite Evs; discriminate). clear Evs.
    destruct (values_split vs) as [Gv|(pre & v & post & e & Evs & Gp & Ev)].
    + destruct (fits_dec (add_arg (boot_args c) (k ++ txt "=" ++ comma_list vs)) (init_args c) (capacity c)) as [F|F].
      * specialize (A5 Gk Hne Gv F). injection A5 as -> ->. now apply mul_ok.
      * specialize (A4 Gk Hne Gv F). injection A4 as -> ->. now apply mul_large.
    + specialize (A3 _ _ _ _ Gk Evs Gp Ev). injection A3 as -> ->. rewrite Evs. now apply mul_value.
  - destruct (trimmed_exists s) as (t & Ht). destruct (C04_insert_str bld c s t Hr Ht) as (A1 & A2 & A3 & A4).
    cbv zeta in *. pose proof (C02_rejected_unchanged bld c (OpStr s)) as A5. cbn [run_op] in A5. rewrite H in *. cbn [fst snd] in *.
    destruct (printable_dec t) as [P|P].
    2:{ pose proof (proj2 A2 P) as ->. rewrite (A5 _ _ eq_refl). now apply str_ascii with t. }
    destruct (fits_dec (add_arg (boot_args c) t) (init_args c) (capacity c)) as [F|F].
    + pose proof (proj2 A1 (conj P F)) as ->. rewrite (A4 eq_refl). now apply str_ok.
    + pose proof (proj2 A3 (conj P F)) as ->. rewrite (A5 _ _ eq_refl). now apply str_large with t.
  - destruct (trimmed_exists s) as (t & Ht). destruct (C04_insert_init_args bld c s t Hr Ht) as (A1 & A2 & A3 & A4).
    cbv zeta in *. pose proof (C02_rejected_unchanged bld c (OpInit s)) as A5. cbn [run_op] in A5. rewrite H in *. cbn [fst snd] in *.
    destruct (printable_dec t) as [P|P].
    2:{ pose proof (proj2 A2 P) as ->. rewrite (A5 _ _ eq_refl). now apply init_ascii with t. }
    destruct (fits_sep_dec (boot_args c) (add_arg (init_args c) t) (capacity c)) as [F|F].
    + pose proof (proj2 A1 (conj P F)) as ->. rewrite (A4 eq_refl). now apply init_ok.
    + pose proof (proj2 A3 (conj P F)) as ->. rewrite (A5 _ _ eq_refl). now apply init_large with t.
  - destruct (C14_canonical_unique size base irq id) as (t & Ht & Hu).
    destruct (C15_virtio_errors bld c size base irq id t Hr Ht) as (A1 & A2 & A3).
    pose proof (C02_rejected_unchanged bld c (OpVirtio size base irq id)) as A5.
    pose proof (C14_virtio_text bld c size base irq id c' Hr) as A6.
    cbv zeta in *. cbn [run_op] in *. rewrite H in *. cbn [fst snd] in *.
    destruct (N.eq_dec size 0) as [E|E].
    { pose proof (proj2 A1 E) as ->. rewrite (A5 _ _ eq_refl), E. apply vio_size. }
    destruct (fits_dec (add_arg (boot_args c) t) (init_args c) (capacity c)) as [F|F].
    + pose proof (proj2 A3 (conj E F)) as ->. destruct (A6 eq_refl) as (t' & Ht' & _ & ->).
      rewrite (Hu _ Ht'). now apply vio_ok.
    + pose proof (proj2 A2 (conj E F)) as ->. rewrite (A5 _ _ eq_refl). now apply vio_large with t.
Qed.

(** The rules contradict each other nowhere. *)
Lemma key_error_bad k e : key_error k e -> ~ good_key k.
Proof. intros [k0 H|k0 H1 H2|k0 H1 H2 H3] (G1 & G2 & G3); contradiction. Qed.
Lemma key_error_det k e e' : key_error k e -> key_error k e' -> e = e'.
Proof. intros H H'. inversion H; inversion H'; subst; try reflexivity; contradiction. Qed.
Lemma value_error_bad v e : value_error v e -> ~ good_value v.
Proof. intros [v0 H|v0 H1 H2|v0 H1 H2 H3 H4] (G1 & G2 & G3); try contradiction. apply H4, G3, H3. Qed.
Lemma value_error_det v e e' : value_error v e -> value_error v e' -> e = e'.
Proof. intros H H'. inversion H; inversion H'; subst; try reflexivity; contradiction. Qed.
Lemma first_bad_value pre : forall pre' v v' post post' e e',
  pre ++ v :: post = pre' ++ v' :: post' -> Forall good_value pre -> Forall good_value pre' ->
  value_error v e -> value_error v' e' -> e = e'.
Proof.
  induction pre as [|x pre IH]; intros [|y pre'] v v' post post' e e' E F F' B B'; cbn in E; injection E as -> E.
  - exact (value_error_det _ _ _ B B').
  - inversion F' as [|? ? X _]; subst. exfalso. exact (value_error_bad _ _ B X).
  - inversion F as [|? ? X _]; subst. exfalso. exact (value_error_bad _ _ B' X).
  - inversion F as [|? ? _ X]; inversion F' as [|? ? _ X']; subst. exact (IH _ _ _ _ _ _ _ E X X' B B').
Qed.
Lemma trimmed_det s t t' : trimmed_of s t -> trimmed_of s t' -> t = t'.
Proof. intros H H'. apply trimmed_unique in H, H'. congruence. Qed.
Lemma device_det size base irq id t t' : device_argument size base irq id t -> device_argument size base irq id t' -> t = t'.
Proof. destruct (C14_canonical_unique size base irq id) as (u & _ & H). intros A B. rewrite (H _ A), (H _ B). reflexivity. Qed.

Ltac clash :=
  match goal with
  | A : key_error ?k _, B : good_key ?k |- _ => exfalso; exact (key_error_bad _ _ A B)
  | A : value_error ?k _, B : good_value ?k |- _ => exfalso; exact (value_error_bad _ _ A B)
  | A : value_error ?v _, B : Forall good_value (_ ++ ?v :: _) |- _ =>
      exfalso; apply Forall_app in B as [_ B]; inversion B as [|? ? B1 B2]; exact (value_error_bad _ _ A B1)
  | _ => contradiction
  end.
Lemma call_det cap b i o r b' i' r2 b2 i2 :
  call_says cap b i o r b' i' -> call_says cap b i o r2 b2 i2 -> r = r2 /\ b' = b2 /\ i' = i2.
Proof.
  intros H H'. destruct o as [k v|k vs|s|s|size base irq id].
  - inversion H; inversion H'; subst; try clash; auto.
    + split; [|auto]. f_equal. eapply key_error_det; eassumption.
    + split; [|auto]. f_equal. eapply value_error_det; eassumption.
  - inversion H as [ | | | | | | | | | |k0 vs0 e0 K0|k0 K0|k0 pre0 v0 post0 e0 K0 P0 V0|k0 vs0 K0 N0 G0 F0|k0 vs0 K0 N0 G0 F0| | | ]; subst;
    inversion H' as [ | | | | | | | | | |k1 vs1 e1 K1|k1 K1|k1 pre1 v1 post1 e1 K1 P1 V1 Q1|k1 vs1 K1 N1 G1 F1|k1 vs1 K1 N1 G1 F1| | | ]; subst;
    try clash; auto.
    + split; [|auto]. f_equal. eapply key_error_det; eassumption.
    + destruct pre1; discriminate.
    + destruct pre0; discriminate.
    + split; [|auto]. f_equal. symmetry. eapply first_bad_value; eassumption.
  - inversion H as [s0 t T|s0 t T|s0 t T| | | | | | | | | | | | | | | ]; subst;
    inversion H' as [s1 t1 T1|s1 t1 T1|s1 t1 T1| | | | | | | | | | | | | | | ]; subst; try (split; [reflexivity|auto]; fail);
      pose proof (trimmed_det _ _ _ T T1) as <-; try clash; auto.
  - inversion H as [ | | |s0 t T|s0 t T|s0 t T| | | | | | | | | | | | ]; subst;
    inversion H' as [ | | |s1 t1 T1|s1 t1 T1|s1 t1 T1| | | | | | | | | | | | ]; subst; try (split; [reflexivity|auto]; fail);
      pose proof (trimmed_det _ _ _ T T1) as <-; try clash; auto.
  - inversion H as [ | | | | | | | | | | | | | | |b0 q0 d0|s0 b0 q0 d0 t N0 T|s0 b0 q0 d0 t N0 T]; subst;
    inversion H' as [ | | | | | | | | | | | | | | |b1 q1 d1|s1 b1 q1 d1 t1 N1 T1|s1 b1 q1 d1 t1 N1 T1]; subst; try clash; auto;
      pose proof (device_det _ _ _ _ _ _ T T1) as <-; try clash; auto.
Qed.
Lemma calls_det cap b i os rs b' i' : calls_say cap b i os rs b' i' ->
  forall rs2 b2 i2, calls_say cap b i os rs2 b2 i2 -> rs = rs2 /\ b' = b2 /\ i' = i2.
Proof.
  induction 1 as [b i|b i o os r rs b1 i1 b2 i2 H1 H2 IH]; intros rs' b' i' H'; inversion H'; subst; [auto|].
  match goal with X : call_says cap b i o _ _ _, Y : calls_say _ _ _ os _ _ _ |- _ =>
    destruct (call_det _ _ _ _ _ _ _ _ _ _ H1 X) as (<- & <- & <-); destruct (IH _ _ _ Y) as (<- & <- & <-) end.
  auto.
Qed.
Lemma ctor_det k o o' : ctor_says k o -> ctor_says k o' -> o = o'.
Proof.
  intros H H'. inversion H as [|cap N0|raw cap b i P N0|raw cap b i P N0 F]; subst;
    inversion H' as [|cap1 N1|raw1 cap1 b1 i1 P1 N1|raw1 cap1 b1 i1 P1 N1 F1]; subst; try reflexivity; try contradiction;
    destruct (proj2 (C10_parts_exist_unique raw) _ _ _ _ P P1) as (<- & <-); try reflexivity; tauto.
Qed.

(** ** C79 *)
Lemma calls_obey bld os : forall c, reachable bld c ->
  calls_say (capacity c) (boot_args c) (init_args c) os (results bld c os)
    (boot_args (run_ops bld c os)) (init_args (run_ops bld c os)).
Proof.
  induction os as [|o os IH]; intros c Hr; [constructor|]. cbn [results].
  unfold run_ops in *. cbn [fold_left]. destruct (run_op bld c o) as [c' r] eqn:E. cbn [fst snd].
  econstructor; [exact (call_obeys _ _ _ _ _ Hr E)|].
  assert (Hr' : reachable bld c') by (pose proof (reachable_step bld c o Hr) as X; now rewrite E in X).
  assert (Hc : capacity c' = capacity c).
  { pose proof (proj2 (run_op_inv bld c o (reachable_inv _ _ Hr))) as X. now rewrite E in X. }
  rewrite <- Hc. exact (IH c' Hr').
Qed.
Lemma ctor_obeys k : ctor_typed k ->
  (exists e, run_ctor k = Err e /\ ctor_says k (Err e)) \/
  (exists c, run_ctor k = Ok c /\ capacity c = ctor_cap k /\ ctor_says k (Ok (boot_args c, init_args c))).
Proof.
  intros Ht. destruct k as [cap|raw cap]; cbn [run_ctor ctor_cap].
  - destruct (C11_new_capacity cap) as (A & B). destruct (N.eq_dec cap 0) as [E|E].
    + left. exists InvalidCapacity. split; [now apply A|]. subst cap. apply new_zero.
    + right. eexists. split; [exact (B E)|]. split; [reflexivity|]. now apply new_ok.
  - destruct Ht as (T1 & T2). destruct (proj1 (C10_parts_exist_unique raw)) as (b & i & P).
    destruct (C11_capacity_exact raw cap b i T1 T2 P) as (A & B).
    destruct (N.eq_dec cap 0) as [E|E].
    { left. eexists. split; [apply A; now left|]. apply parse_bad with b i; auto. }
    destruct (fits_dec b i cap) as [F|F].
    + right. eexists. split; [apply B; auto|]. split; [reflexivity|]. now apply parse_ok.
    + left. eexists. split; [apply A; now right|]. apply parse_bad with b i; auto.
Qed.

Theorem C79_history : forall bld k os s,
  ctor_typed k -> (history_says k os s <-> crate_story bld k os = Some s).
Proof.
  intros bld k os s Ht. unfold crate_story.
  destruct (ctor_obeys k Ht) as [(e & -> & C)|(c & E & Hc & C)].
  - split.
    + intros H. inversion H as [e' C'|b0 i0 rs b i C' R]; subst.
      * pose proof (ctor_det _ _ _ C C') as X. congruence.
      * pose proof (ctor_det _ _ _ C C') as X. discriminate.
    + intros X. injection X as <-. now constructor.
  - rewrite E. assert (Hr : reachable bld c) by (exists k, c, []; auto).
    pose proof (calls_obey bld os c Hr) as R0. rewrite Hc in R0. rewrite as_cstring_spec. split.
    + intros H. inversion H as [e' C'|b0 i0 rs b i C' R]; subst.
      * pose proof (ctor_det _ _ _ C C') as X. discriminate.
      * pose proof (ctor_det _ _ _ C C') as X. injection X as <- <-.
        destruct (calls_det _ _ _ _ _ _ _ R0 _ _ _ R) as (-> & -> & ->). reflexivity.
    + intros X. injection X as <-. econstructor; eassumption.
Qed.
(** Every history has exactly one story under the rules. *)
Theorem C79_one_story : forall k os, ctor_typed k ->
  exists s, history_says k os s /\ forall s', history_says k os s' -> s' = s.
Proof.
  intros k os Ht. destruct (crate_story true k os) as [s|] eqn:E.
  - exists s. split; [now apply (C79_history true)|]. intros s' H. apply (C79_history true k os s' Ht) in H. congruence.
  - exfalso. unfold crate_story in E. destruct (ctor_obeys k Ht) as [(e & F & _)|(c & F & _)]; rewrite F in E; discriminate.
Qed.

Example C79_applies : exists rs,
  history_says (New 128) demo_ops
    (Built rs (Ok (utf8 (txt "console=ttyS0 virtio_mmio.device=4K@0xd0000000:5:2 quiet a=1,2 -- --verbose")))) /\
  rs = [Ok tt; Err HasSpace; Ok tt; Ok tt; Ok tt; Ok tt; Err InvalidAscii].
Proof.
  eexists. split; [apply (C79_history true); [reflexivity|]|].
  - vm_compute. reflexivity.
  - reflexivity.
Qed.
(** The rules applied by hand, without the model. *)
Example C79_by_hand : forall cap, 11 <= cap ->
  history_says (New cap) [OpInsert (txt "a b") (txt "c"); OpStr (txt " x "); OpInit (txt "i"); OpVirtio 0 1 2 None]
    (Built [Err HasSpace; Ok tt; Ok tt; Err MmioSize] (Ok (utf8 (txt "x -- i")))).
Proof.
  intros cap Hc.
  apply (hist_built (New cap) _ [] [] [Err HasSpace; Ok tt; Ok tt; Err MmioSize] (txt "x") (txt "i")).
  { apply new_ok. lia. }
  cbn [ctor_cap].
  assert (P : forall t, (forall c, In c t -> 32 <= c <= 126) -> Forall printable t) by (intros t H; now apply Forall_forall).
  eapply say_call. { apply ins_key, ke_space; [apply P; cbn; intros c X; intuition lia|cbn; auto]. }
  eapply say_call.
  { apply (str_ok _ _ _ (txt " x ") (txt "x")).
    - apply (trim_spec (txt " x ")).
    - apply P; cbn; intros c X; intuition lia.
    - unfold fits. change (lenN (utf8 (full_text (add_arg [] (txt "x")) []))) with 1. lia. }
  eapply say_call.
  { apply (init_ok _ _ _ (txt "i") (txt "i")).
    - apply (trim_spec (txt "i")).
    - apply P; cbn; intros c X; intuition lia.
    - unfold fits_with_sep. match goal with |- ?n + 1 <= _ => change n with 6 end. lia. }
  eapply say_call; [apply vio_size|constructor].
Qed.
