(** * Props_Laws: property C95.

    Laws relating different uses of the command line builder. *)
From Verif Require Import Base Base_proofs Text Cmdline SpecCmdline Text_proofs
  Cmdline_proofs Cmdline_proofs2 Cmdline_proofs3 Props_Cmdline SpecHistory Props_History SpecLaws.

Lemma run_cap bld c o c' r : reachable bld c -> run_op bld c o = (c', r) -> capacity c' = capacity c.
Proof.
  intros R E. pose proof (run_op_inv bld c o (reachable_inv _ _ R)) as [_ A]. rewrite E in A. exact A.
Qed.

(** An accepted call, by the rules. *)
Lemma ok_cases bld c o c' : reachable bld c -> run_op bld c o = (c', Ok tt) ->
  (exists t, boot_slug o t /\ fits (add_arg (boot_args c) t) (init_args c) (capacity c) /\
     c' = mkCmdline (add_arg (boot_args c) t) (init_args c) (capacity c)) \/
  (exists t, init_slug o t /\ fits_with_sep (boot_args c) (add_arg (init_args c) t) (capacity c) /\
     c' = mkCmdline (boot_args c) (add_arg (init_args c) t) (capacity c)).
Proof.
  intros R E. pose proof (run_cap _ _ _ _ _ R E) as K.
  pose proof (call_obeys _ _ _ _ _ R E) as S1.
  destruct c' as [b' i' k']. cbn [boot_args init_args capacity] in *. subst k'.
  inversion S1; subst.
  - left. exists t. split; [constructor; assumption|split; [assumption|reflexivity]].
  - right. exists t. split; [constructor; assumption|split; [assumption|reflexivity]].
  - left. eexists. split; [constructor; assumption|split; [assumption|reflexivity]].
  - left. eexists. split; [constructor; assumption|split; [assumption|reflexivity]].
  - left. eexists. split; [constructor; eassumption|split; [assumption|reflexivity]].
Qed.

Lemma ok_by_rule bld c o b i : reachable bld c ->
  call_says (capacity c) (boot_args c) (init_args c) o (Ok tt) b i ->
  run_op bld c o = (mkCmdline b i (capacity c), Ok tt).
Proof.
  intros R S1. destruct (run_op bld c o) as [c' r] eqn:E.
  pose proof (run_cap _ _ _ _ _ R E) as K.
  destruct (call_det _ _ _ _ _ _ _ _ _ _ S1 (call_obeys _ _ _ _ _ R E)) as (<- & -> & ->).
  destruct c' as [x y z]. cbn [boot_args init_args capacity] in *. subst. reflexivity.
Qed.
Lemma boot_ok bld c o t : reachable bld c -> boot_slug o t ->
  fits (add_arg (boot_args c) t) (init_args c) (capacity c) ->
  run_op bld c o = (mkCmdline (add_arg (boot_args c) t) (init_args c) (capacity c), Ok tt).
Proof. intros R B F. apply ok_by_rule; [exact R|]. destruct B; econstructor; eassumption. Qed.
Lemma init_ok bld c o t : reachable bld c -> init_slug o t ->
  fits_with_sep (boot_args c) (add_arg (init_args c) t) (capacity c) ->
  run_op bld c o = (mkCmdline (boot_args c) (add_arg (init_args c) t) (capacity c), Ok tt).
Proof. intros R B F. apply ok_by_rule; [exact R|]. destruct B; econstructor; eassumption. Qed.

Lemma boot_slug_det o t t' : boot_slug o t -> boot_slug o t' -> t = t'.
Proof.
  intros A B. destruct A; inversion B; subst; try reflexivity.
  - eapply trimmed_det; eassumption.
  - eapply device_det; eassumption.
Qed.
Lemma init_slug_det o t t' : init_slug o t -> init_slug o t' -> t = t'.
Proof. intros A B. destruct A; inversion B; subst. eapply trimmed_det; eassumption. Qed.
Lemma boot_not_init o t t' : boot_slug o t -> init_slug o t' -> False.
Proof. intros A B. destruct A; inversion B. Qed.

Lemma reach_next bld c o c' r : reachable bld c -> run_op bld c o = (c', r) -> reachable bld c'.
Proof. intros R E. pose proof (reachable_step bld c o R) as A. rewrite E in A. exact A. Qed.

Lemma add_arg_nil t : add_arg [] t = t.
Proof. reflexivity. Qed.
Lemma add_arg_empty c t : add_arg c t = [] -> c = [] /\ t = [].
Proof. destruct c; cbn; [auto|discriminate]. Qed.

(** Accepted sequences, read off: the texts contributed in order, and the builder at the end. *)
Inductive adds : list op -> list text -> list text -> Prop :=
| adds_nil : adds [] [] []
| adds_boot o os t bs js : boot_slug o t -> adds os bs js -> adds (o :: os) (t :: bs) js
| adds_init o os t bs js : init_slug o t -> adds os bs js -> adds (o :: os) bs (t :: js).

Lemma all_ok_adds bld c os c' : all_ok bld c os c' -> reachable bld c ->
  exists bs js, adds os bs js /\
    c' = mkCmdline (fold_left add_arg bs (boot_args c)) (fold_left add_arg js (init_args c)) (capacity c) /\
    reachable bld c'.
Proof.
  induction 1 as [c|c o os c1 c' E _ IH]; intros R.
  - exists [], []. split; [constructor|]. split; [destruct c; reflexivity|exact R].
  - destruct (IH (reach_next _ _ _ _ _ R E)) as (bs & js & A & B & C).
    destruct (ok_cases _ _ _ _ R E) as [(t & S1 & F & ->)|(t & S1 & F & ->)]; cbn [boot_args init_args capacity] in B.
    + exists (t :: bs), js. split; [constructor; assumption|]. split; [exact B|exact C].
    + exists bs, (t :: js). split; [constructor; assumption|]. split; [exact B|exact C].
Qed.

Lemma slugs_det (P : op -> text -> Prop) : (forall o t t', P o t -> P o t' -> t = t') ->
  forall os a b, Forall2 P os a -> Forall2 P os b -> a = b.
Proof.
  intros D os. induction os as [|o os IH]; intros a b A B; inversion A; inversion B; subst; [reflexivity|].
  f_equal; [eapply D; eassumption|apply IH; assumption].
Qed.

(** Which class a call belongs to. *)
Definition boot_call (o : op) : Prop := forall s, o <> OpInit s.
Definition init_call (o : op) : Prop := exists s, o = OpInit s.

Lemma adds_classes bs_ops is_ops os bs js :
  Forall boot_call bs_ops -> Forall init_call is_ops -> shuffle bs_ops is_ops os -> adds os bs js ->
  Forall2 boot_slug bs_ops bs /\ Forall2 init_slug is_ops js.
Proof.
  intros HB HI Sh. revert bs js HB HI. induction Sh; intros bs js HB HI A.
  - inversion A; subst. split; constructor.
  - inversion HB as [|? ? T0 HB']; subst. inversion A; subst.
    + destruct (IHSh _ _ HB' HI H4) as [P Q]. split; [constructor; assumption|exact Q].
    + exfalso. match goal with X : init_slug _ _ |- _ => inversion X; subst end. eapply T0. reflexivity.
  - inversion HI as [|? ? [t0 T0] HI']; subst. inversion A; subst.
    + exfalso. match goal with X : boot_slug _ _ |- _ => inversion X end.
    + destruct (IHSh _ _ HB HI' H4) as [P Q]. split; [exact P|constructor; assumption].
Qed.

(** ** C95: boot and init calls do not disturb each other *)
Theorem C95_interleaving : forall bld c bs is os os' c1 c2,
  reachable bld c -> Forall boot_call bs -> Forall init_call is ->
  shuffle bs is os -> shuffle bs is os' ->
  all_ok bld c os c1 -> all_ok bld c os' c2 -> c1 = c2.
Proof.
  intros bld c bs js os os' c1 c2 R HB HI S1 S2 A1 A2.
  destruct (all_ok_adds _ _ _ _ A1 R) as (b1 & j1 & P1 & -> & _).
  destruct (all_ok_adds _ _ _ _ A2 R) as (b2 & j2 & P2 & -> & _).
  destruct (adds_classes _ _ _ _ _ HB HI S1 P1) as [B1 J1].
  destruct (adds_classes _ _ _ _ _ HB HI S2 P2) as [B2 J2].
  rewrite (slugs_det _ boot_slug_det _ _ _ B1 B2), (slugs_det _ init_slug_det _ _ _ J1 J2). reflexivity.
Qed.

(** ** C95: room is all that matters *)
Definition room (b i : text) : N := str_len b + match i with [] => 0 | _ => 4 + str_len i end.
Lemma room_boot b t i : room b i <= room (add_arg b t) i.
Proof. unfold room. rewrite add_arg_len. destruct b; lia. Qed.
Lemma room_init b i t : room b i <= room b (add_arg i t).
Proof.
  unfold room. pose proof (add_arg_len i t) as L. destruct (add_arg i t) as [|y r] eqn:E.
  - apply add_arg_empty in E as [-> ->]. lia.
  - destruct i; lia.
Qed.
Lemma room_folds bs : forall js b i,
  room b i <= room (fold_left add_arg bs b) (fold_left add_arg js i).
Proof.
  induction bs as [|t bs IH]; intros js b i; cbn [fold_left].
  - revert i. induction js as [|t js IH]; intros i; cbn [fold_left]; [lia|].
    etransitivity; [apply (room_init b i t)|apply IH].
  - etransitivity; [apply (room_boot b t i)|apply IH].
Qed.
Lemma fits_room b i cap : fits b i cap <-> room b i + 1 <= cap.
Proof. rewrite fits_len. unfold room. reflexivity. Qed.

Lemma adds_room bld os bs js : adds os bs js -> forall c, reachable bld c -> Forall (fun t => t <> []) js ->
  fits (fold_left add_arg bs (boot_args c)) (fold_left add_arg js (init_args c)) (capacity c) ->
  all_ok bld c os (mkCmdline (fold_left add_arg bs (boot_args c)) (fold_left add_arg js (init_args c)) (capacity c)).
Proof.
  induction 1 as [|o os t bs js S1 A IH|o os t bs js S1 A IH]; intros c R NB F; cbn [fold_left] in *.
  - destruct c. constructor.
  - assert (F1 : fits (add_arg (boot_args c) t) (init_args c) (capacity c)).
    { rewrite fits_room in *. pose proof (room_folds bs js (add_arg (boot_args c) t) (init_args c)). lia. }
    pose proof (boot_ok bld c o t R S1 F1) as E. econstructor; [exact E|].
    apply (IH (mkCmdline _ _ _)); [exact (reach_next _ _ _ _ _ R E)|exact NB|exact F].
  - inversion NB as [|? ? NT NB']; subst.
    assert (F1 : fits_with_sep (boot_args c) (add_arg (init_args c) t) (capacity c)).
    { apply C04_sep_counted. { intros X. apply add_arg_empty in X as [_ ->]. now apply NT. }
      rewrite fits_room in *. pose proof (room_folds bs js (boot_args c) (add_arg (init_args c) t)). lia. }
    pose proof (init_ok bld c o t R S1 F1) as E. econstructor; [exact E|].
    apply (IH (mkCmdline _ _ _)); [exact (reach_next _ _ _ _ _ R E)|exact NB'|exact F].
Qed.

Lemma reach_fits bld c : reachable bld c -> fits (boot_args c) (init_args c) (capacity c).
Proof. intros R. apply (reachable_inv _ _ R). Qed.

Lemma shuffle_adds bo io os : shuffle bo io os -> forall bs js,
  Forall2 boot_slug bo bs -> Forall2 init_slug io js -> adds os bs js.
Proof.
  induction 1; intros bs js B J.
  - inversion B; inversion J; subst. constructor.
  - inversion B; subst. constructor; auto.
  - inversion J; subst. constructor; auto.
Qed.

(** Calls that stand for the boot arguments [bs] and the non-blank init arguments [is] are all
    accepted exactly if the finished command line fits, in whatever order they are made. *)
Theorem C95_room : forall bld c bo io os bs is c',
  reachable bld c -> shuffle bo io os ->
  Forall2 boot_slug bo bs -> Forall2 init_slug io is -> Forall (fun t => t <> []) is ->
  (all_ok bld c os c' <->
   c' = mkCmdline (fold_left add_arg bs (boot_args c)) (fold_left add_arg is (init_args c)) (capacity c) /\
   fits (boot_args c') (init_args c') (capacity c)).
Proof.
  intros bld c bo io os bs js c' R Sh B J NB.
  pose proof (shuffle_adds _ _ _ Sh _ _ B J) as A. split.
  - intros H. destruct (all_ok_adds _ _ _ _ H R) as (b2 & j2 & A2 & E & R2).
    assert (Forall boot_call bo).
    { clear - B. induction B; constructor; [|assumption]. intros s ->. inversion H. }
    assert (Forall init_call io).
    { clear - J. induction J; constructor; [|assumption]. destruct H. eexists. reflexivity. }
    destruct (adds_classes _ _ _ _ _ H0 H1 Sh A2) as [B2 J2].
    rewrite (slugs_det _ boot_slug_det _ _ _ B B2), (slugs_det _ init_slug_det _ _ _ J J2).
    split; [exact E|]. pose proof (reach_fits _ _ R2) as F. rewrite E in *. exact F.
  - intros [-> F]. apply adds_room; assumption.
Qed.

(** So acceptance does not depend on how boot and init calls are interleaved. *)
Theorem C95_any_order : forall bld c bo io os os' c',
  reachable bld c -> Forall boot_call bo -> Forall init_call io ->
  (forall s, In (OpInit s) io -> ~ Forall white s) ->
  shuffle bo io os -> shuffle bo io os' -> (all_ok bld c os c' <-> all_ok bld c os' c').
Proof.
  assert (W : forall bld c bo io os os' c',
    reachable bld c -> Forall boot_call bo -> Forall init_call io ->
    (forall s, In (OpInit s) io -> ~ Forall white s) ->
    shuffle bo io os -> shuffle bo io os' -> all_ok bld c os c' -> all_ok bld c os' c').
  { intros bld c bo io os os' c' R HB HI NW S1 S2 A1.
    destruct (all_ok_adds _ _ _ _ A1 R) as (b1 & j1 & P1 & E & R2).
    destruct (adds_classes _ _ _ _ _ HB HI S1 P1) as [B1 J1].
    apply (proj2 (C95_room bld c bo io os' b1 j1 c' R S2 B1 J1
             ltac:(clear - J1 NW; induction J1 as [|o t io js H _ IH]; constructor;
                     [destruct H as [s t T _]; intros ->; apply (NW s); [now left|];
                      destruct T as (l & r & -> & L & R' & _); now apply Forall_app
                     |apply IH; intros s I'; apply NW; now right]))).
    split; [exact E|]. pose proof (reach_fits _ _ R2) as F. rewrite E in *. exact F. }
  intros. split; eapply W; eassumption.
Qed.

(** With a blank init argument it can: [insert_init_args("")] wants room for the separator. *)
Example C95_blank_init_refuted : exists c c' boots inits,
  cmdline_new 6 = Ok c /\ Forall boot_call boots /\ Forall init_call inits /\
  all_ok true c (inits ++ boots) c' /\ ~ exists c2, all_ok true c (boots ++ inits) c2.
Proof.
  eexists. exists (mkCmdline (txt "abcde") [] 6), [OpStr (txt "abcde")], [OpInit []].
  split; [vm_compute; reflexivity|]. split; [constructor; [intros s; discriminate|constructor]|].
  split; [constructor; [eexists; reflexivity|constructor]|]. split.
  - eapply ok_call; [vm_compute; reflexivity|]. eapply ok_call; [vm_compute; reflexivity|]. constructor.
  - intros [c2 H]. inversion H as [|? ? ? ? ? E1 H1]; subst. vm_compute in E1. injection E1 as <-.
    inversion H1 as [|? ? ? ? ? E2 H2]; subst. vm_compute in E2. discriminate.
Qed.

(** ** C95: more capacity never hurts *)
Lemma ok_mono bld os : forall c d c', reachable bld c -> reachable bld d ->
  boot_args d = boot_args c -> init_args d = init_args c -> capacity c <= capacity d ->
  all_ok bld c os c' -> all_ok bld d os (mkCmdline (boot_args c') (init_args c') (capacity d)).
Proof.
  induction os as [|o os IH]; intros c d c' Rc Rd Eb Ei L H.
  - inversion H; subst. destruct d as [b i k]. cbn [boot_args init_args capacity] in *. subst. constructor.
  - inversion H as [|? ? ? c1 ? E H1]; subst. pose proof (reach_next _ _ _ _ _ Rc E) as R1.
    destruct (ok_cases _ _ _ _ Rc E) as [(t & S1 & F & ->)|(t & S1 & F & ->)].
    + assert (E2 : run_op bld d o = (mkCmdline (add_arg (boot_args d) t) (init_args d) (capacity d), Ok tt)).
      { apply boot_ok; [exact Rd|exact S1|]. rewrite Eb, Ei. rewrite fits_room in *. lia. }
      econstructor; [exact E2|]. apply (IH _ (mkCmdline _ _ _) _ R1 (reach_next _ _ _ _ _ Rd E2));
        cbn [boot_args init_args capacity]; [now rewrite Eb|exact Ei|exact L|exact H1].
    + assert (E2 : run_op bld d o = (mkCmdline (boot_args d) (add_arg (init_args d) t) (capacity d), Ok tt)).
      { apply init_ok; [exact Rd|exact S1|]. rewrite Eb, Ei. rewrite fits_with_sep_len in *. lia. }
      econstructor; [exact E2|]. apply (IH _ (mkCmdline _ _ _) _ R1 (reach_next _ _ _ _ _ Rd E2));
        cbn [boot_args init_args capacity]; [exact Eb|now rewrite Ei|exact L|exact H1].
Qed.

Theorem C95_capacity_monotone : forall bld c d os c',
  reachable bld c -> reachable bld d ->
  boot_args d = boot_args c -> init_args d = init_args c -> capacity c <= capacity d ->
  all_ok bld c os c' -> all_ok bld d os (mkCmdline (boot_args c') (init_args c') (capacity d)).
Proof.
  intros bld c d os c'. apply ok_mono.
Qed.

(** ** C95: one by one or all at once *)
Lemma add_arg_assoc b w t : w <> [] -> add_arg (add_arg b w) t = add_arg b (w ++ txt " " ++ t).
Proof.
  intros NW. destruct b as [|x b]; cbn [add_arg].
  - destruct w; [now elim NW|reflexivity].
  - change (((x :: b) ++ txt " " ++ w) ++ txt " " ++ t = (x :: b) ++ txt " " ++ w ++ txt " " ++ t).
    rewrite <- !app_assoc. reflexivity.
Qed.
Lemma fold_words ws : forall b, Forall word ws -> ws <> [] -> fold_left add_arg ws b = add_arg b (spaced ws).
Proof.
  induction ws as [|w ws IH]; intros b W N0; [now elim N0|].
  inversion W as [|? ? [NW _] W']; subst. cbn [fold_left]. destruct ws as [|w2 ws]; [reflexivity|].
  rewrite IH by (assumption || discriminate). rewrite add_arg_assoc by assumption. reflexivity.
Qed.
Lemma spaced_word ws : Forall word ws -> ws <> [] -> word (spaced ws).
Proof.
  induction ws as [|w ws IH]; intros W N0; [now elim N0|].
  inversion W as [|? ? Hw W']; subst. destruct ws as [|w2 ws]; [exact Hw|].
  destruct (IH W' ltac:(discriminate)) as (N1 & T1 & P1). destruct Hw as (N2 & T2 & P2).
  change (spaced (w :: w2 :: ws)) with (w ++ txt " " ++ spaced (w2 :: ws)) in *.
  split. { destruct w; [now elim N2|discriminate]. }
  split.
  - exists [], []. cbn [app]. rewrite app_nil_r. split; [reflexivity|]. split; [constructor|]. split; [constructor|].
    destruct T2 as (l2 & r2 & _ & _ & _ & F2 & _). destruct T1 as (l1 & r1 & _ & _ & _ & _ & L1).
    split.
    + intros c t' E. destruct w as [|x w]; [now elim N2|]. injection E as -> _. eapply F2. reflexivity.
    + intros c t' E. rewrite app_assoc in E. apply last_app_last in E as [l' E]; [|exact N1].
      eapply L1. exact E.
  - apply Forall_app. split; [exact P2|]. apply Forall_app. split; [|exact P1].
    constructor; [|constructor]. unfold printable. cbn. lia.
Qed.

Lemma words_adds_str ws : Forall word ws -> adds (map OpStr ws) ws [].
Proof. induction 1 as [|w ws (_ & T & P) _ IH]; cbn [map]; constructor; [constructor; assumption|exact IH]. Qed.
Lemma words_adds_init ws : Forall word ws -> adds (map OpInit ws) [] ws.
Proof. induction 1 as [|w ws (_ & T & P) _ IH]; cbn [map]; constructor; [constructor; assumption|exact IH]. Qed.
Lemma adds_det os b1 j1 : adds os b1 j1 -> forall b2 j2, adds os b2 j2 -> b1 = b2 /\ j1 = j2.
Proof.
  induction 1 as [|o os t bs js S1 A IH|o os t bs js S1 A IH]; intros b2 j2 B.
  - inversion B. split; reflexivity.
  - inversion B as [|? ? t' bs' js' S2 A2|? ? t' bs' js' S2 A2]; subst.
    + destruct (IH _ _ A2) as [-> ->]. rewrite (boot_slug_det _ _ _ S1 S2). split; reflexivity.
    + exfalso. exact (boot_not_init _ _ _ S1 S2).
  - inversion B as [|? ? t' bs' js' S2 A2|? ? t' bs' js' S2 A2]; subst.
    + exfalso. exact (boot_not_init _ _ _ S2 S1).
    + destruct (IH _ _ A2) as [-> ->]. rewrite (init_slug_det _ _ _ S1 S2). split; reflexivity.
Qed.
Lemma adds_iff bld c os bs js c' : reachable bld c -> adds os bs js -> Forall (fun t => t <> []) js ->
  (all_ok bld c os c' <->
   c' = mkCmdline (fold_left add_arg bs (boot_args c)) (fold_left add_arg js (init_args c)) (capacity c) /\
   fits (boot_args c') (init_args c') (capacity c)).
Proof.
  intros R A NB. split.
  - intros H. destruct (all_ok_adds _ _ _ _ H R) as (b2 & j2 & A2 & E & R2).
    destruct (adds_det _ _ _ A _ _ A2) as [<- <-]. split; [exact E|].
    pose proof (reach_fits _ _ R2) as F. rewrite E in *. exact F.
  - intros [-> F]. apply adds_room; assumption.
Qed.
Lemma all_ok_one bld c o c' : all_ok bld c [o] c' <-> run_op bld c o = (c', Ok tt).
Proof.
  split.
  - intros H. inversion H as [|? ? ? c1 ? E H1]; subst. inversion H1; subst. exact E.
  - intros E. econstructor; [exact E|constructor].
Qed.

Theorem C95_one_by_one : forall bld c ws c',
  reachable bld c -> ws <> [] -> Forall word ws ->
  (all_ok bld c (map OpStr ws) c' <-> run_op bld c (OpStr (spaced ws)) = (c', Ok tt)) /\
  (all_ok bld c (map OpInit ws) c' <-> run_op bld c (OpInit (spaced ws)) = (c', Ok tt)).
Proof.
  intros bld c ws c' R N0 W. pose proof (spaced_word ws W N0) as SW.
  assert (NE : Forall (fun t : text => t <> []) ws) by (eapply Forall_impl; [|exact W]; intros ? [? _]; assumption).
  rewrite <- !all_ok_one. split.
  - rewrite (adds_iff bld c _ ws [] c' R (words_adds_str _ W)) by constructor.
    rewrite (adds_iff bld c [OpStr (spaced ws)] [spaced ws] [] c' R
              (words_adds_str [spaced ws] ltac:(constructor; [exact SW|constructor]))) by constructor.
    cbn [fold_left]. rewrite fold_words by assumption. reflexivity.
  - rewrite (adds_iff bld c _ [] ws c' R (words_adds_init _ W) NE).
    rewrite (adds_iff bld c [OpInit (spaced ws)] [] [spaced ws] c' R
              (words_adds_init [spaced ws] ltac:(constructor; [exact SW|constructor]))
              ltac:(constructor; [apply SW|constructor])).
    cbn [fold_left]. rewrite fold_words by assumption. reflexivity.
Qed.

(** ** C95: every boot call is an [insert_str] of its text *)
Lemma slug_trimmed o t : boot_slug o t -> trimmed_of t t /\ Forall printable t.
Proof.
  intros B. destruct B as [k v K V|k vs K N0 V|s t T P|size base irq id t Z D].
  - split; [|apply kv_printable; [exact K|apply V]]. apply trimmed_iff. symmetry. apply kv_trim; [exact K|].
    intros c w' E. eapply good_value_last; eassumption.
  - split; [|apply kv_printable; [exact K|apply comma_printable, V]].
    apply trimmed_iff. symmetry. apply kv_trim; [exact K|]. apply comma_last, V.
  - split; [eapply trimmed_self_of; exact T|exact P].
  - rewrite (device_det _ _ _ _ _ _ D (device_argument_ok size base irq id)).
    pose proof (device_text_ok size base irq id) as O. split.
    + apply trimmed_iff. symmetry. apply no_space_trim, O.
    + eapply Forall_impl; [|exact O]. intros c [X _]. exact X.
Qed.

Theorem C95_as_text : forall bld c o t, reachable bld c -> boot_slug o t ->
  run_op bld c o = run_op bld c (OpStr t).
Proof.
  intros bld c o t R B. destruct (slug_trimmed o t B) as [T P].
  destruct (run_op bld c (OpStr t)) as [c1 r1] eqn:E1. destruct (run_op bld c o) as [c2 r2] eqn:E2.
  pose proof (run_cap _ _ _ _ _ R E1) as K1. pose proof (run_cap _ _ _ _ _ R E2) as K2.
  pose proof (call_obeys _ _ _ _ _ R E1) as S1. pose proof (call_obeys _ _ _ _ _ R E2) as S2.
  destruct c1 as [b1 i1 k1], c2 as [b2 i2 k2]. cbn [boot_args init_args capacity] in *. subst k1 k2.
  destruct (fits_dec (add_arg (boot_args c) t) (init_args c) (capacity c)) as [F|F].
  - destruct (call_det _ _ _ _ _ _ _ _ _ _ S1 (str_ok _ _ _ t t T P F)) as (-> & -> & ->).
    assert (C2 : call_says (capacity c) (boot_args c) (init_args c) o (Ok tt) (add_arg (boot_args c) t) (init_args c))
      by (destruct B; econstructor; eassumption).
    destruct (call_det _ _ _ _ _ _ _ _ _ _ S2 C2) as (-> & -> & ->). reflexivity.
  - destruct (call_det _ _ _ _ _ _ _ _ _ _ S1 (str_large _ _ _ t t T P F)) as (-> & -> & ->).
    assert (C2 : call_says (capacity c) (boot_args c) (init_args c) o (Err TooLarge) (boot_args c) (init_args c))
      by (destruct B; econstructor; eassumption).
    destruct (call_det _ _ _ _ _ _ _ _ _ _ S2 C2) as (-> & -> & ->). reflexivity.
Qed.

(** ** C95: parsing is building *)
Theorem C95_parse_is_build : forall bld raw cap boot init c,
  ctor_typed (Parse raw cap) -> parsed_parts raw boot init -> Forall printable boot -> Forall printable init ->
  (cmdline_try_from raw cap = Ok c <->
   exists c0, cmdline_new cap = Ok c0 /\
     all_ok bld c0 (OpStr boot :: match init with [] => [] | _ => [OpInit init] end) c).
Proof.
  intros bld raw cap boot init c [Tc Tr] PP PB PI.
  destruct (C11_capacity_exact raw cap boot init Tc Tr PP) as [Bad Good].
  destruct (C11_new_capacity cap) as [Z NZ].
  assert (TB : trimmed_of boot boot /\ trimmed_of init init).
  { destruct PP as [(i & _ & A & B)|(_ & A & ->)]; split; try (eapply trimmed_self_of; eassumption).
    exists [], []. split; [reflexivity|]. split; [constructor|]. split; [constructor|].
    split; intros x t' E; destruct t'; discriminate. }
  destruct TB as [TB TI].
  destruct (N.eq_dec cap 0) as [C0|C0].
  { rewrite (Bad (or_introl C0)). split; [discriminate|]. intros (c0 & E & _).
    rewrite (proj2 Z C0) in E. discriminate. }
  set (c0 := mkCmdline [] [] cap).
  assert (R : reachable bld c0).
  { exists (New cap), c0, []. split; [exact Tc|]. split; [exact (NZ C0)|reflexivity]. }
  assert (A : all_ok bld c0 (OpStr boot :: match init with [] => [] | _ => [OpInit init] end) c <->
              c = mkCmdline boot init cap /\ fits boot init cap).
  { assert (AD : exists js, adds (OpStr boot :: match init with [] => [] | _ => [OpInit init] end) [boot] js /\
        fold_left add_arg js [] = init /\ Forall (fun t : text => t <> []) js).
    { destruct init as [|x init].
      - exists []. split; [|split; [reflexivity|constructor]]. constructor; [constructor; assumption|constructor].
      - exists [x :: init]. split; [|split; [reflexivity|constructor; [discriminate|constructor]]].
        constructor; [constructor; assumption|]. constructor; [constructor; assumption|constructor]. }
    destruct AD as (js & AD & J & NJ).
    rewrite (adds_iff bld c0 _ [boot] js c R AD NJ). cbn [fold_left boot_args init_args capacity c0].
    change (add_arg [] boot) with boot. rewrite J. split; intros [-> F]; (split; [reflexivity|exact F]). }
  split.
  - intros E. exists c0. split; [exact (NZ C0)|]. apply A.
    destruct (fits_dec boot init cap) as [F|F].
    + rewrite (Good (conj C0 F)) in E. injection E as <-. split; [reflexivity|exact F].
    + rewrite (Bad (or_intror F)) in E. discriminate.
  - intros (c1 & E & H). rewrite (NZ C0) in E. injection E as <-. apply A in H as [-> F]. exact (Good (conj C0 F)).
Qed.

(** A concrete case: two interleavings of the same calls, and the same text in one call. *)
Example C95_applies : exists c, cmdline_new 40 = Ok c /\
  all_ok true c [OpInsert (txt "a") (txt "1"); OpInit (txt "-x"); OpStr (txt " quiet "); OpInit (txt "y")]
    (mkCmdline (txt "a=1 quiet") (txt "-x y") 40) /\
  all_ok true c [OpInit (txt "-x"); OpInit (txt "y"); OpInsert (txt "a") (txt "1"); OpStr (txt " quiet ")]
    (mkCmdline (txt "a=1 quiet") (txt "-x y") 40) /\
  all_ok true c [OpStr (txt "a=1 quiet"); OpInit (txt "-x y")] (mkCmdline (txt "a=1 quiet") (txt "-x y") 40) /\
  cmdline_try_from (txt " a=1 quiet --  -x y") 40 = Ok (mkCmdline (txt "a=1 quiet") (txt "-x y") 40).
Proof.
  eexists. split; [vm_compute; reflexivity|].
  split; [repeat (eapply ok_call; [vm_compute; reflexivity|]); constructor|].
  split; [repeat (eapply ok_call; [vm_compute; reflexivity|]); constructor|].
  split; [repeat (eapply ok_call; [vm_compute; reflexivity|]); constructor|].
  vm_compute. reflexivity.
Qed.
