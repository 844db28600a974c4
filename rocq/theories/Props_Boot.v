(** * Props_Boot: building boot parameters, properties C47-C52.

    Vocabulary: SpecBoot.v.  [add w bld p e addr = (p', o)] is [add_section] or [add_module] of an
    element whose bytes are [e]; [p'] are the boot parameters afterwards, [o] the result. *)
From Verif Require Import Base Base_proofs Io Mem SpecMem Mem_proofs SpecBz SpecBoot BootParams Boot_proofs Configurators Props_Config Demo_elf.

Lemma add_spec bld w p e addr p' o :
  call_ok (start_of w p) addr (contents (list_of w p)) e -> add w bld p e addr = (p', o) ->
  same_but w p p' /\ exists v', list_of w p' = Some v' /\ start_of w p' = start_with (start_of w p) addr /\
  let st := start_with (start_of w p) addr in let v := contents (list_of w p) in
  ((st = None /\ o = Err MissingStartAddress /\ v' = v) \/
   exists s, st = Some s /\
   (2 ^ 64 <= s + lenN v /\ o = Err BOverflow /\ v' = v \/
    s + lenN v < 2 ^ 64 /\ let a := match addr with Some a => a | None => s + lenN v end in
    (a < s /\ o = Err InvalidAddress /\ v' = v \/
     s <= a /\ (2 ^ 63 <= a - s + lenN e /\ (exists q, o = Panic q) \/
       a - s + lenN e < 2 ^ 63 /\ o = Ok a /\ placed v (a - s) e v')))).
Proof.
  intros Hc H. destruct w; cbn [add list_of start_of] in *; unfold add_section, add_module in H;
    [change (contents (sections p)) with (or_empty (sections p)) in *|change (contents (modules p)) with (or_empty (modules p)) in *].
  - destruct (add_to_list bld e addr (or_empty (sections p)) (sections_start p)) as [[v' st'] o'] eqn:E.
    apply add_cases in E as [-> E]; [|exact Hc]. inversion H; subst p' o'. split; [repeat split|]. exists v'. cbn. auto.
  - destruct (add_to_list bld e addr (or_empty (modules p)) (modules_start p)) as [[v' st'] o'] eqn:E.
    apply add_cases in E as [-> E]; [|exact Hc]. inversion H; subst p' o'. split; [repeat split|]. exists v'. cbn. auto.
Qed.

(** ** C47: appending. *)
Lemma placed_end v e v' : placed v (lenN v) e v' -> v' = v ++ e.
Proof.
  intros [Hl Hn]. apply list_ext. intros i. destruct (Nat.lt_ge_cases i (N.to_nat (lenN v'))) as [H|H].
  - replace i with (N.to_nat (N.of_nat i)) by lia. rewrite Hn by lia. destruct (N.leb_spec (lenN v) (N.of_nat i)) as [H1|H1]; cbn [andb].
    + rewrite (proj2 (N.ltb_lt _ _)) by lia. rewrite nth_error_app2 by (unfold lenN in H1; lia). f_equal. unfold lenN. lia.
    + rewrite (proj2 (N.ltb_lt _ _)) by lia. rewrite nth_error_app1 by (unfold lenN in H1; lia). reflexivity.
  - rewrite !(proj2 (nth_error_None _ _)); [reflexivity| |]; rewrite ?app_length; unfold lenN in *; lia.
Qed.

Lemma same_but_trans w p1 p2 p3 : same_but w p1 p2 -> same_but w p2 p3 -> same_but w p1 p3.
Proof. intros (?&?&?&?) (?&?&?&?). repeat split; congruence. Qed.
Lemma same_but_refl w p : same_but w p p.
Proof. repeat split. Qed.

Lemma append_all_spec bld w : forall es p v s p' os,
  list_of w p = Some v -> start_of w p = Some s ->
  s + lenN v + lenN (concat es) < 2 ^ 64 -> lenN v + lenN (concat es) <= 2 ^ 63 - 1 ->
  append_all bld w p es = (p', os) ->
  list_of w p' = Some (v ++ concat es) /\ start_of w p' = Some s /\ same_but w p p' /\ length os = length es /\
  forall i, (i < length es)%nat -> nth_error os i = Some (Ok (s + lenN v + lenN (concat (firstn i es)))).
Proof.
  induction es as [|e es IH]; intros p v s p' os Hl Hs Hb1 Hb2 H; cbn [append_all concat] in *.
  - inversion H; subst p' os. rewrite app_nil_r. split; [exact Hl|]. split; [exact Hs|]. split; [apply same_but_refl|]. split; [reflexivity|]. cbn. lia.
  - destruct (add w bld p e None) as [p1 o] eqn:E. destruct (append_all bld w p1 es) as [p2 os2] eqn:E2. inversion H; subst p' os. clear H.
    rewrite lenN_app in Hb1, Hb2.
    apply add_spec in E.
    2:{ rewrite Hl, Hs. cbn [contents]. split; [intros s' Es; inversion Es; subst; lia|]. split; [discriminate|]. lia. }
    rewrite Hl, Hs in E. cbn [contents start_with] in E. destruct E as (Hsb & v' & Hl' & Hs' & E).
    destruct E as [(E & _)|(s' & Es & [(E & _)|(_ & E)])]; [discriminate|inversion Es; subst; lia|]. inversion Es; subst s'. clear Es.
    cbv zeta in E. replace (s + lenN v - s) with (lenN v) in E by lia.
    destruct E as [(E & _)|(_ & [(E & _)|(_ & -> & E)])]; [lia|lia|]. apply placed_end in E. subst v'.
    apply (IH p1 (v ++ e) s p2 os2) in E2; [|exact Hl'|exact Hs'|rewrite lenN_app; lia|rewrite lenN_app; lia].
    destruct E2 as (G1 & G2 & G3 & G4 & G5). split; [rewrite G1, app_assoc; reflexivity|]. split; [exact G2|]. split; [eapply same_but_trans; eassumption|].
    split; [cbn; lia|]. intros [|i] Hi; cbn [nth_error firstn concat].
    + do 2 f_equal. change (lenN (@nil byte)) with 0. lia.
    + rewrite G5 by (cbn in Hi; lia). do 2 f_equal. rewrite !lenN_app. lia.
Qed.

Theorem C47_append : forall bld w p es0 s es p' os,
  s + lenN (concat (es0 ++ es)) < 2 ^ 64 -> lenN (concat (es0 ++ es)) <= 2 ^ 63 - 1 ->
  append_all bld w (set_list w p es0 s) es = (p', os) ->
  list_of w p' = Some (concat (es0 ++ es)) /\ start_of w p' = Some s /\ same_but w p p' /\ length os = length es /\
  forall i, (i < length es)%nat -> nth_error os i = Some (Ok (s + lenN (concat (es0 ++ firstn i es)))).
Proof.
  intros until os. intros H1 H2 H. rewrite concat_app, lenN_app in H1, H2.
  apply (append_all_spec bld w es _ (concat es0) s) in H; [|destruct w; reflexivity|destruct w; reflexivity|lia|lia].
  destruct H as (G1 & G2 & G3 & G4 & G5). rewrite concat_app. split; [exact G1|]. split; [exact G2|]. split.
  - destruct w; exact G3.
  - split; [exact G4|]. intros i Hi. rewrite G5 by assumption. rewrite concat_app, lenN_app. do 2 f_equal. lia.
Qed.
Example C47_applies : forall bld w p, exists p',
  append_all bld w (set_list w p [[x01; x02]; [x03]] 0x1000) [[x04]; [x05; x06]] = (p', [Ok 0x1003; Ok 0x1004]) /\
  list_of w p' = Some [x01; x02; x03; x04; x05; x06].
Proof. intros [] [] p; (eexists; split; [vm_compute; reflexivity|reflexivity]). Qed.

(** ** C48: adding at an explicit address. *)
Theorem C48_add_at : forall bld w p e a p' o,
  call_ok (start_of w p) (Some a) (contents (list_of w p)) e ->
  add w bld p e (Some a) = (p', Ok o) ->
  exists s v', o = a /\ s <= a /\
    (* the start address is the old one, or the given address if there was none *)
    start_of w p' = Some s /\ (start_of w p = Some s \/ start_of w p = None /\ s = a) /\
    list_of w p' = Some v' /\ placed (contents (list_of w p)) (a - s) e v' /\ same_but w p p'.
Proof.
  intros until o. intros Hc H. apply add_spec in H; [|exact Hc]. destruct H as (Hsb & v' & Hl & Hs & E). cbv zeta in E.
  destruct E as [(_ & E & _)|(s & Es & [(_ & E & _)|(_ & [(_ & E & _)|(Hle & [(_ & q & E)|(_ & E & Hp)])])])]; try discriminate.
  inversion E; subst o. exists s, v'. split; [reflexivity|]. split; [exact Hle|]. rewrite Es in Hs. split; [exact Hs|]. split.
  - unfold start_with in Es. destruct (start_of w p); [left; congruence|right; inversion Es; auto].
  - auto.
Qed.
(** When it succeeds. *)
Theorem C48_add_at_accepted : forall bld w p e a s,
  call_ok (start_of w p) (Some a) (contents (list_of w p)) e ->
  start_with (start_of w p) (Some a) = Some s -> s <= a ->
  s + lenN (contents (list_of w p)) < 2 ^ 64 -> a - s + lenN e < 2 ^ 63 ->
  exists p', add w bld p e (Some a) = (p', Ok a).
Proof.
  intros until s. intros Hc Hs Ha Hb Hb2. destruct (add w bld p e (Some a)) as [p' o] eqn:H. exists p'.
  apply add_spec in H; [|exact Hc]. destruct H as (_ & v' & _ & _ & E). cbv zeta in E. rewrite Hs in E.
  destruct E as [(E & _)|(s' & Es & E)]; [discriminate|]. inversion Es; subst s'.
  destruct E as [(E & _)|(_ & [(E & _)|(_ & [(E & _)|(_ & -> & _)])])]; [lia|lia|lia|reflexivity].
Qed.
(** What [placed] means for a gap: bytes between the old end and the element are zero; the element
    can be read back; nothing of the old list outside the element changes. *)
Example C48_applies : forall bld w p, exists p',
  add w bld (set_list w p [[x01; x02; x03]] 0x1000) [xaa] (Some 0x1005) = (p', Ok 0x1005) /\
  list_of w p' = Some [x01; x02; x03; x00; x00; xaa] /\
  exists p'', add w bld (set_list w p [[x01; x02; x03]] 0x1000) [xaa] (Some 0x1001) = (p'', Ok 0x1001) /\ list_of w p'' = Some [x01; xaa; x03].
Proof. intros [] [] p; (eexists; split; [vm_compute; reflexivity|split; [reflexivity|eexists; split; [vm_compute; reflexivity|reflexivity]]]). Qed.

(** ** C49: exactly when each error is returned. *)
Theorem C49_add_errors : forall bld w p e addr p' o,
  call_ok (start_of w p) addr (contents (list_of w p)) e -> add w bld p e addr = (p', o) ->
  let st := start_with (start_of w p) addr in
  (o = Err MissingStartAddress <-> start_of w p = None /\ addr = None) /\
  (o = Err BOverflow <-> exists s, st = Some s /\ 2 ^ 64 <= s + lenN (contents (list_of w p))) /\
  (o = Err InvalidAddress <-> exists s a, st = Some s /\ addr = Some a /\ s + lenN (contents (list_of w p)) < 2 ^ 64 /\ a < s) /\
  (forall x, o = Err x -> x = MissingStartAddress \/ x = BOverflow \/ x = InvalidAddress).
Proof.
  intros until o. intros Hc H. apply add_spec in H; [|exact Hc]. destruct H as (_ & v' & _ & _ & E). cbv zeta in *.
  assert (Hst : start_with (start_of w p) addr = None <-> start_of w p = None /\ addr = None).
  { unfold start_with. destruct (start_of w p), addr; split; intros G; try discriminate; try (destruct G; discriminate); auto. }
  set (L := lenN (contents (list_of w p))) in *.
  destruct E as [(E & -> & _)|(s & Es & E)].
  { rewrite E. split; [split; [tauto|auto]|]. split; [split; [discriminate|intros (? & ? & _); discriminate]|].
    split; [split; [discriminate|intros (? & ? & ? & _); discriminate]|]. intros x Ex. inversion Ex. auto. }
  assert (Hno : ~ (start_of w p = None /\ addr = None)) by (rewrite <- Hst; congruence).
  destruct E as [(E & -> & _)|(Hlt & E)].
  { split; [split; [discriminate|tauto]|]. split; [split; [eauto|reflexivity]|]. split; [split; [discriminate|]|intros x Ex; inversion Ex; auto].
    intros (s' & a & E1 & _ & E2 & _). rewrite Es in E1. inversion E1; subst s'. lia. }
  assert (Hno2 : ~ exists s0, start_with (start_of w p) addr = Some s0 /\ 2 ^ 64 <= s0 + L).
  { intros (s' & E1 & E2). rewrite Es in E1. inversion E1; subst s'. lia. }
  destruct E as [(E & -> & _)|(Hle & E)].
  { split; [split; [discriminate|tauto]|]. split; [split; [discriminate|tauto]|]. split; [|intros x Ex; inversion Ex; auto]. split; [|reflexivity]. intros _.
    destruct addr as [a|]; [eauto 8|lia]. }
  assert (Hno3 : ~ exists s0 a, start_with (start_of w p) addr = Some s0 /\ addr = Some a /\ s0 + L < 2 ^ 64 /\ a < s0).
  { intros (s' & a & E1 & -> & _ & E2). rewrite Es in E1. inversion E1; subst s'. lia. }
  assert (Hne : forall x, o <> Err x) by (intros x; destruct E as [(_ & q & ->)|(_ & -> & _)]; discriminate).
  split; [split; [intros G; now apply Hne in G|tauto]|]. split; [split; [intros G; now apply Hne in G|tauto]|].
  split; [split; [intros G; now apply Hne in G|tauto]|]. intros x G. now apply Hne in G.
Qed.
Example C49_cases : forall bld w p,
  (exists p', add w bld (mkBoot (header p) 0 None None None None) [xaa] None = (p', Err MissingStartAddress)) /\
  (exists p', add w bld (set_list w p [[x01; x02]] (2 ^ 64 - 2)) [xaa] None = (p', Err BOverflow)) /\
  (exists p', add w bld (set_list w p [[x01; x02]] 0x1000) [xaa] (Some 0xfff) = (p', Err InvalidAddress)).
Proof. intros [] [] p; (split; [|split]; eexists; vm_compute; reflexivity). Qed.

(** ** C50: what a failed add leaves behind: the header, the other list, the contents and (for
    every history that keeps an address-less list empty) the start address are as before; but an
    absent list becomes present and empty. *)
Theorem C50_failed_add : forall bld w p e addr p' x,
  call_ok (start_of w p) addr (contents (list_of w p)) e -> add w bld p e addr = (p', Err x) ->
  same_but w p p' /\ list_of w p' = Some (contents (list_of w p)) /\
  (start_of w p' = start_of w p \/ start_of w p = None /\ contents (list_of w p) <> [] /\ x = BOverflow).
Proof.
  intros until x. intros Hc H. apply add_spec in H; [|exact Hc]. destruct H as (Hsb & v' & Hl & Hs & E). cbv zeta in *.
  split; [exact Hsb|].
  assert (Hv : v' = contents (list_of w p)).
  { destruct E as [(_ & _ & E)|(s & _ & [(_ & _ & E)|(_ & [(_ & _ & E)|(_ & [(_ & q & E)|(_ & E & _)])])])]; try assumption; discriminate. }
  subst v'. split; [exact Hl|]. rewrite Hs. destruct (start_of w p) as [s0|] eqn:E0; cbn [start_with] in *; [auto|].
  destruct addr as [a|]; [|auto]. right. split; [reflexivity|]. destruct Hc as (_ & Ha & _). specialize (Ha a eq_refl).
  destruct E as [(E & _)|(s & Es & E)]; [discriminate|]. inversion Es; subst s.
  destruct E as [(E & E1 & _)|(_ & [(E & _)|(_ & [(_ & q & E)|(_ & E & _)])])]; [|lia|discriminate|discriminate].
  inversion E1. split; [|reflexivity]. intros En. rewrite En in E. change (lenN (@nil byte)) with 0 in E. lia.
Qed.
(** The property that a failed add changes nothing is false, and it matters: parameters that could
    be written to a guest can no longer be written after a failed [add_module]. *)
Theorem C50_failed_add_refuted : exists p p' e m m1 m2,
  add_module true p e None = (p', Err MissingStartAddress) /\ p' <> p /\ wf_mem m = true /\
  pvh_write_bootparams TryAccess p m = (m1, Ok tt) /\
  pvh_write_bootparams TryAccess p' m = (m2, Err (BPvh ModulesAddressMissing)).
Proof.
  exists (set_sections (bp_new [x01; x02] 0x10) [[x03]] 0x20). do 2 eexists. exists cfg_mem. do 2 eexists.
  split; [instantiate (2 := [xaa]); vm_compute; reflexivity|]. split; [discriminate|]. split; [reflexivity|]. split; vm_compute; reflexivity.
Qed.
Example C50_applies : forall bld w, exists p p' x,
  call_ok (start_of w p) (Some 0xfff) (contents (list_of w p)) [xaa] /\ add w bld p [xaa] (Some 0xfff) = (p', Err x) /\
  contents (list_of w p) = [x01; x02].
Proof.
  intros bld w. exists (set_list w (bp_new [x09] 0x10) [[x01; x02]] 0x1000), (set_list w (bp_new [x09] 0x10) [[x01; x02]] 0x1000). eexists. split.
  - destruct w; (split; [intros s Hs; inversion Hs; reflexivity|]; split; [intros a Ha; inversion Ha; reflexivity|]; split; vm_compute; discriminate).
  - split; [destruct bld, w; vm_compute; reflexivity|destruct w; reflexivity].
Qed.

(** ** C51: when add aborts the program: exactly when no error applies and the element would end
    2^63 bytes or more after the start of the list.  (So "never panics" is false.) *)
Theorem C51_add_panics_iff : forall bld w p e addr p' o,
  call_ok (start_of w p) addr (contents (list_of w p)) e -> add w bld p e addr = (p', o) ->
  ((exists q, o = Panic q) <->
   exists s, start_with (start_of w p) addr = Some s /\ s + lenN (contents (list_of w p)) < 2 ^ 64 /\
     let a := match addr with Some a => a | None => s + lenN (contents (list_of w p)) end in
     s <= a /\ 2 ^ 63 <= a - s + lenN e).
Proof.
  intros until o. intros Hc H. apply add_spec in H; [|exact Hc]. destruct H as (_ & v' & _ & _ & E). cbv zeta in *.
  split.
  - intros (q & ->). destruct E as [(_ & E & _)|(s & Es & [(_ & E & _)|(H1 & [(_ & E & _)|(H2 & [(H3 & _)|(_ & E & _)])])])]; try discriminate. eauto 8.
  - intros (s & Es & H1 & H2 & H3). destruct E as [(E & _)|(s' & E' & E)]; [congruence|]. rewrite Es in E'. inversion E'; subst s'.
    destruct E as [(E & _)|(_ & [(E & _)|(_ & [(_ & E)|(E & _)])])]; [lia|lia|exact E|lia].
Qed.
(** In particular: no panic while lists stay below 2^63 bytes. *)
Theorem C51_add_no_panic : forall bld w p e addr p' o,
  call_ok (start_of w p) addr (contents (list_of w p)) e -> add w bld p e addr = (p', o) ->
  (forall s a, start_with (start_of w p) addr = Some s -> addr = Some a -> a < s + 2 ^ 62) ->
  lenN (contents (list_of w p)) < 2 ^ 62 -> lenN e < 2 ^ 62 -> forall q, o <> Panic q.
Proof.
  intros until o. intros Hc H Ha Hl He q ->. destruct (proj1 (C51_add_panics_iff _ _ _ _ _ _ _ Hc H)) as (s & Es & _ & H1 & H2); [eauto|].
  cbv zeta in *. assert (E : 2 ^ 63 = 2 ^ 62 + 2 ^ 62) by reflexivity. rewrite E in H2. destruct addr as [a|]; [specialize (Ha s a Es eq_refl)|]; lia.
Qed.
Theorem C51_add_panic_refuted : forall bld, exists p e a p' q,
  a < 2 ^ 64 /\ add_section bld p e (Some a) = (p', Panic q).
Proof.
  intros bld. exists (set_sections (bp_new [] 0) [] 0), [xaa], (2 ^ 64 - 1). destruct bld; do 2 eexists; (split; [reflexivity|vm_compute; reflexivity]).
Qed.

(** ** C52: what was built reaches the guest. *)
Lemma which_dec (w w' : which) : w = w' \/ w' = other w.
Proof. destruct w, w'; auto. Qed.
Lemma same_but_other w p p' : same_but w p p' -> list_of (other w) p' = list_of (other w) p /\ start_of (other w) p' = start_of (other w) p.
Proof. intros (_ & _ & ? & ?). auto. Qed.
Lemma sized_call w p e addr : sized p -> call_sized (BAdd w e addr) -> call_ok (start_of w p) addr (contents (list_of w p)) e.
Proof. intros Hp [H1 H2]. destruct (Hp w). split; [assumption|]. auto. Qed.

Lemma call_same bld p c p' o : call_sized c -> sized p -> call bld p c = (p', o) ->
  same_but (match c with BSet w _ _ | BAdd w _ _ => w end) p p'.
Proof.
  intros Hc Hp H. destruct c as [w es a|w e addr]; cbn [call] in H.
  - inversion H; subst. destruct w; repeat split.
  - apply add_spec in H; [apply H|]. now apply sized_call.
Qed.

Lemma call_keeps_sized bld p c p' o : sized p -> call_sized c -> call bld p c = (p', o) -> (forall q, o <> Panic q) -> sized p'.
Proof.
  intros Hp Hc H Hq. pose proof (call_same _ _ _ _ _ Hc Hp H) as Hsb. destruct c as [w es a|w e addr]; cbn [call] in H.
  - intros w'. destruct (which_dec w w') as [<- | ->].
    + inversion H; subst. destruct w; cbn; (split; [apply Hc|]; intros s Es; inversion Es; subst; apply Hc).
    + destruct (same_but_other _ _ _ Hsb) as [-> ->]. apply Hp.
  - intros w'. destruct (which_dec w w') as [<- | ->]; [|destruct (same_but_other _ _ _ Hsb) as [-> ->]; apply Hp].
    apply add_spec in H; [|now apply sized_call]. destruct H as (_ & v' & Hl & Hs & E). cbv zeta in E. rewrite Hl, Hs. cbn [contents].
    destruct (Hp w) as [Hp1 Hp2]. split.
    + destruct E as [(_ & _ & ->)|(s & _ & [(_ & _ & ->)|(_ & [(_ & _ & ->)|(_ & [(_ & q & E)|(Hb & _ & E & _)])])])]; try assumption.
      * now apply Hq in E.
      * rewrite E. lia.
    + unfold start_with. destruct (start_of w p); [assumption|]. apply Hc.
Qed.

Lemma call_keeps_elem bld w p c p' o s v a e :
  sized p -> call_sized c ->
  list_of w p = Some v -> start_of w p = Some s -> has s v a e ->
  call bld p c = (p', o) -> (forall q, o <> Panic q) -> keeps w a (lenN e) c o ->
  exists v', list_of w p' = Some v' /\ start_of w p' = Some s /\ has s v' a e.
Proof.
  intros Hp Hc Hl Hs Hh H Hq Hk. pose proof (call_same _ _ _ _ _ Hc Hp H) as Hsb. destruct c as [w' es b|w' e2 addr]; cbn [call keeps] in *.
  - destruct (which_dec w' w) as [-> | ->]; [congruence|]. destruct (same_but_other _ _ _ Hsb) as [-> ->]. eauto.
  - destruct (which_dec w' w) as [-> | ->]; [|destruct (same_but_other _ _ _ Hsb) as [-> ->]; eauto].
    apply add_spec in H; [|now apply sized_call]. destruct H as (_ & v' & Hl' & Hs' & E). cbv zeta in E. rewrite Hl, Hs in *. cbn [contents start_with] in *.
    exists v'. split; [exact Hl'|]. split; [exact Hs'|].
    destruct E as [(E & _)|(s' & Es & [(_ & _ & ->)|(_ & [(_ & _ & ->)|(Hle & [(_ & q & E)|(Hb & -> & E)])])])]; try assumption.
    + discriminate.
    + now apply Hq in E.
    + inversion Es; subst s'. eapply placed_keeps; [exact E|exact Hh|]. specialize (Hk eq_refl _ eq_refl).
      replace (s + (match addr with Some a0 => a0 | None => s + lenN v end - s)) with (match addr with Some a0 => a0 | None => s + lenN v end) by lia. exact Hk.
Qed.

Lemma history_keeps bld w a e : forall p p', history bld (keeps w a (lenN e)) p p' ->
  forall s v, sized p -> list_of w p = Some v -> start_of w p = Some s -> has s v a e ->
  exists v', list_of w p' = Some v' /\ start_of w p' = Some s /\ has s v' a e.
Proof.
  induction 1 as [p|p c p' o p'' Hc H Hq Hk _ IH]; intros s v Hp Hl Hs Hh; [eauto|].
  destruct (call_keeps_elem _ _ _ _ _ _ _ _ _ _ Hp Hc Hl Hs Hh H Hq Hk) as (v1 & Hl1 & Hs1 & Hh1).
  eapply IH; [|exact Hl1|exact Hs1|exact Hh1]. eapply call_keeps_sized; eassumption.
Qed.
Lemma history_header bld keep p p' : history bld keep p p' -> sized p -> header p' = header p /\ header_start p' = header_start p.
Proof.
  induction 1 as [p|p c p' o p'' Hc H Hq Hk _ IH]; intros Hp; [auto|].
  pose proof (call_same _ _ _ _ _ Hc Hp H) as (E1 & E2 & _). destruct IH as [E3 E4]; [eapply call_keeps_sized; eassumption|]. split; congruence.
Qed.

(** An element that [add] accepted at address [a] is in the list right afterwards... *)
Lemma add_has bld w p e addr p1 a : sized p -> call_sized (BAdd w e addr) -> add w bld p e addr = (p1, Ok a) ->
  exists s v, list_of w p1 = Some v /\ start_of w p1 = Some s /\ has s v a e.
Proof.
  intros Hp Hc H. apply add_spec in H; [|now apply sized_call]. destruct H as (_ & v' & Hl & Hs & E). cbv zeta in E.
  destruct E as [(_ & E & _)|(s & Es & [(_ & E & _)|(_ & [(_ & E & _)|(Hle & [(_ & q & E)|(_ & E & Hpl)])])])]; try discriminate.
  inversion E; subst a. exists s, v'. rewrite Es in Hs. split; [exact Hl|]. split; [exact Hs|].
  pose proof (placed_has _ _ _ _ s Hpl) as G. replace (s + (_ - s)) with (match addr with Some a => a | None => s + lenN (contents (list_of w p)) end) in G by lia. exact G.
Qed.
(** ...and so is each element of a [set] list, after the elements before it. *)
Lemma set_has w p es1 e es2 b : exists v,
  list_of w (set_list w p (es1 ++ e :: es2) b) = Some v /\ start_of w (set_list w p (es1 ++ e :: es2) b) = Some b /\
  has b v (b + lenN (concat es1)) e.
Proof.
  exists (concat (es1 ++ e :: es2)). split; [destruct w; reflexivity|]. split; [destruct w; reflexivity|]. split; [lia|]. intros i c Hc.
  replace (b + lenN (concat es1) - b + i) with (lenN (concat es1) + i) by lia. rewrite concat_app. cbn [concat].
  pose proof (nth_error_lenN _ _ _ Hc) as Hi. rewrite nth_error_app2 by (unfold lenN; lia).
  rewrite nth_error_app1 by (unfold lenN in *; lia). rewrite <- Hc. f_equal. unfold lenN. lia.
Qed.

(** The area of the guest a list occupies. *)
Definition area (w : which) (p : boot_info) : list (N * bytes) :=
  match start_of w p, list_of w p with Some s, Some v => [(s, v)] | _, _ => [] end.

Lemma pieces_eq p : pvh_pieces p = area Sections p ++ [(header_start p, header p)] ++ area Modules p.
Proof. reflexivity. Qed.

(** The element reaches the guest if nothing written after its list overlaps it. *)
Lemma list_elem_in_guest be w p m m' s v a e :
  wf_mem m = true -> pvh_write_bootparams be p m = (m', Ok tt) ->
  list_of w p = Some v -> start_of w p = Some s -> has s v a e ->
  (w = Sections -> disjoint (a, e) (header_start p, header p) /\ forall t, In t (area Modules p) -> disjoint (a, e) t) ->
  holds_at m' a e.
Proof.
  intros Hw H Hl Hs [Hsa Hh] Hd. destruct (C44_pvh_writes _ _ _ _ Hw H) as ((_ & Hov) & _). rewrite pieces_eq in Hov.
  intros i b Hb. rewrite Hov. pose proof (Hh _ _ Hb) as Hv. pose proof (nth_error_lenN _ _ _ Hb) as Hi.
  assert (Ea : area w p = [(s, v)]) by (unfold area; now rewrite Hl, Hs).
  assert (Hput : forall g, put g s v (a + i) = b).
  { intros g. replace (a + i) with (s + (a - s + i)) by lia. now apply put_in. }
  destruct w.
  - specialize (Hd eq_refl) as [Hd1 Hd2]. rewrite Ea, !overlay_app. rewrite overlay_out.
    2:{ intros a' bs' Hin. apply (Hd2 _ Hin (a + i)). split; cbn; lia. }
    unfold overlay. cbn [fold_left fst snd]. rewrite put_out; [apply Hput|]. apply (Hd1 (a + i)). split; cbn; lia.
  - rewrite Ea, !overlay_app. unfold overlay at 1. cbn [fold_left fst snd]. apply Hput.
Qed.

(** Added modules: at the address the call returned, whatever else was called before or after,
    unless the modules were replaced or another module was stored over it. *)
Theorem C52_module_reaches_guest : forall bld be p0 pre_ok p e addr p1 a p2 m m',
  sized p0 -> history bld pre_ok p0 p ->
  call_sized (BAdd Modules e addr) -> add_module bld p e addr = (p1, Ok a) ->
  history bld (keeps Modules a (lenN e)) p1 p2 ->
  wf_mem m = true -> pvh_write_bootparams be p2 m = (m', Ok tt) -> holds_at m' a e.
Proof.
  intros until m'. intros Hp0 Hh0 Hc H Hh Hw Hwr.
  assert (Hp : sized p). { clear - Hp0 Hh0. induction Hh0; [assumption|]. apply IHHh0. eapply call_keeps_sized; eassumption. }
  destruct (add_has bld Modules p e addr p1 a Hp Hc H) as (s & v & Hl & Hs & Hv).
  assert (Hp1 : sized p1) by (eapply (call_keeps_sized bld p (BAdd Modules e addr)); [exact Hp|exact Hc|exact H|discriminate]).
  destruct (history_keeps _ _ _ _ _ _ Hh _ _ Hp1 Hl Hs Hv) as (v2 & Hl2 & Hs2 & Hv2).
  eapply (list_elem_in_guest be Modules p2 m m' s v2); try eassumption. discriminate.
Qed.

(** Added memory map entries, provided neither the start info nor the modules overlap them. *)
Theorem C52_section_reaches_guest : forall bld be p0 pre_ok p e addr p1 a p2 m m',
  sized p0 -> history bld pre_ok p0 p ->
  call_sized (BAdd Sections e addr) -> add_section bld p e addr = (p1, Ok a) ->
  history bld (keeps Sections a (lenN e)) p1 p2 ->
  wf_mem m = true -> pvh_write_bootparams be p2 m = (m', Ok tt) ->
  disjoint (a, e) (header_start p2, header p2) ->
  (forall s v, modules_start p2 = Some s -> modules p2 = Some v -> disjoint (a, e) (s, v)) ->
  holds_at m' a e.
Proof.
  intros until m'. intros Hp0 Hh0 Hc H Hh Hw Hwr Hd1 Hd2.
  assert (Hp : sized p). { clear - Hp0 Hh0. induction Hh0; [assumption|]. apply IHHh0. eapply call_keeps_sized; eassumption. }
  destruct (add_has bld Sections p e addr p1 a Hp Hc H) as (s & v & Hl & Hs & Hv).
  assert (Hp1 : sized p1) by (eapply (call_keeps_sized bld p (BAdd Sections e addr)); [exact Hp|exact Hc|exact H|discriminate]).
  destruct (history_keeps _ _ _ _ _ _ Hh _ _ Hp1 Hl Hs Hv) as (v2 & Hl2 & Hs2 & Hv2).
  eapply (list_elem_in_guest be Sections p2 m m' s v2); try eassumption. intros _. split; [exact Hd1|].
  intros t Ht. unfold area in Ht. cbn [start_of list_of] in Ht. destruct (modules_start p2) as [ms|] eqn:E1; [|destruct Ht].
  destruct (modules p2) as [mv|] eqn:E2; [|destruct Ht]. destruct Ht as [<-|[]]. apply Hd2; assumption || reflexivity.
Qed.

(** Elements given to [set_sections] / [set_modules]: one after the other from the given address. *)
Theorem C52_set_elem_reaches_guest : forall bld be w p es1 e es2 b p2 m m',
  sized p -> call_sized (BSet w (es1 ++ e :: es2) b) ->
  history bld (keeps w (b + lenN (concat es1)) (lenN e)) (set_list w p (es1 ++ e :: es2) b) p2 ->
  wf_mem m = true -> pvh_write_bootparams be p2 m = (m', Ok tt) ->
  (w = Sections -> disjoint (b + lenN (concat es1), e) (header_start p2, header p2) /\
    forall s v, modules_start p2 = Some s -> modules p2 = Some v -> disjoint (b + lenN (concat es1), e) (s, v)) ->
  holds_at m' (b + lenN (concat es1)) e.
Proof.
  intros until m'. intros Hp Hc Hh Hw Hwr Hd. destruct (set_has w p es1 e es2 b) as (v & Hl & Hs & Hv).
  assert (Hp1 : sized (set_list w p (es1 ++ e :: es2) b)) by (eapply (call_keeps_sized bld p (BSet w (es1 ++ e :: es2) b)); [exact Hp|exact Hc|reflexivity|discriminate]).
  destruct (history_keeps _ _ _ _ _ _ Hh _ _ Hp1 Hl Hs Hv) as (v2 & Hl2 & Hs2 & Hv2).
  eapply (list_elem_in_guest be w p2 m m' b v2); try eassumption. intros Ew. destruct (Hd Ew) as [Hd1 Hd2]. split; [exact Hd1|].
  intros t Ht. unfold area in Ht. cbn [start_of list_of] in Ht. destruct (modules_start p2) as [ms|] eqn:E1; [|destruct Ht].
  destruct (modules p2) as [mv|] eqn:E2; [|destruct Ht]. destruct Ht as [<-|[]]. apply Hd2; assumption || reflexivity.
Qed.

(** The start info given to [new], if the modules do not overlap it. *)
Theorem C52_header_reaches_guest : forall bld be h a keep p2 m m',
  history bld keep (bp_new h a) p2 -> wf_mem m = true -> pvh_write_bootparams be p2 m = (m', Ok tt) ->
  (forall s v, modules_start p2 = Some s -> modules p2 = Some v -> disjoint (a, h) (s, v)) ->
  holds_at m' a h.
Proof.
  intros until m'. intros Hh Hw Hwr Hd. assert (Hp : sized (bp_new h a)) by (intros []; split; [vm_compute; discriminate|discriminate|vm_compute; discriminate|discriminate]).
  destruct (history_header _ _ _ _ Hh Hp) as [E1 E2]. cbn in E1, E2. destruct (C44_pvh_writes _ _ _ _ Hw Hwr) as (Hov & _). rewrite pieces_eq, E1, E2 in Hov.
  eapply overlay_holds; [exact Hov|]. intros x t Ht. unfold area in Ht. cbn [start_of list_of] in Ht. destruct (modules_start p2) as [ms|] eqn:F1; [|destruct Ht].
  destruct (modules p2) as [mv|] eqn:F2; [|destruct Ht]. destruct Ht as [<-|[]]. apply (Hd ms mv eq_refl eq_refl).
Qed.

(** A complete example: build, add out of order, write, look. *)
Definition ex_p0 := bp_new [x01; x02] 0x10.
Example C52_applies : forall bld be, exists p1 p2 p3 m',
  sized ex_p0 /\
  history bld (fun _ _ => True) ex_p0 p1 /\
  add_module bld p1 [xa1; xa2] (Some 0x104) = (p2, Ok 0x104) /\
  history bld (keeps Modules 0x104 2) p2 p3 /\
  pvh_write_bootparams be p3 cfg_mem = (m', Ok tt) /\
  peek m' 0x100 9 = [xb1; xb2; x00; x00; xa1; xa2; xc1; xc2; xff] /\ peek m' 0x20 2 = [x03; xff] /\ peek m' 0x10 3 = [x01; x02; xff].
Proof.
  intros bld be.
  exists (set_modules (set_sections ex_p0 [[x03]] 0x20) [[xb1]; [xb2]] 0x100). do 3 eexists.
  split; [intros []; (split; [vm_compute; discriminate|discriminate])|].
  split. { eapply (hist_call _ _ _ (BSet Sections [[x03]] 0x20)); [vm_compute; split; [discriminate|reflexivity]|reflexivity|discriminate|exact I|].
           eapply (hist_call _ _ _ (BSet Modules [[xb1]; [xb2]] 0x100)); [vm_compute; split; [discriminate|reflexivity]|reflexivity|discriminate|exact I|]. apply hist_nil. }
  split; [destruct bld; vm_compute; reflexivity|]. split.
  { eapply (hist_call _ _ _ (BAdd Modules [xc1; xc2] None)); [split; [vm_compute; discriminate|discriminate]|destruct bld; vm_compute; reflexivity|discriminate| |apply hist_nil].
    intros _ b Eb. inversion Eb. left. vm_compute. discriminate. }
  destruct be; repeat split; vm_compute; reflexivity.
Qed.

(** ** C50 again: for parameters built through the API only, a failed add changes no address. *)
Lemma history_addressed bld keep p p' : history bld keep p p' -> sized p ->
  (forall w, start_of w p = None -> contents (list_of w p) = []) ->
  sized p' /\ forall w, start_of w p' = None -> contents (list_of w p') = [].
Proof.
  induction 1 as [p|p c p' o p'' Hc H Hq Hk _ IH]; intros Hp Ha; [auto|].
  assert (Hp' : sized p') by (eapply call_keeps_sized; eassumption). apply IH; [exact Hp'|]. clear IH.
  pose proof (call_same _ _ _ _ _ Hc Hp H) as Hsb. intros w Hn.
  destruct c as [w' es a|w' e addr]; cbn [call] in H.
  - destruct (which_dec w' w) as [-> | ->]; [|destruct (same_but_other _ _ _ Hsb) as [E1 E2]; rewrite E1; apply Ha; congruence].
    inversion H; subst. destruct w; discriminate.
  - destruct (which_dec w' w) as [-> | ->]; [|destruct (same_but_other _ _ _ Hsb) as [E1 E2]; rewrite E1; apply Ha; congruence].
    apply add_spec in H; [|now apply sized_call]. destruct H as (_ & v' & Hl & Hs & E). cbv zeta in E. rewrite Hn in Hs. rewrite <- Hs in E.
    destruct E as [(_ & _ & E)|(s & E & _)]; [|discriminate]. rewrite Hl, E. apply Ha. unfold start_with in Hs. destruct (start_of w p); congruence.
Qed.
Theorem C50_failed_add_built : forall bld h a keep p w e addr p' x,
  history bld keep (bp_new h a) p -> call_sized (BAdd w e addr) -> add w bld p e addr = (p', Err x) ->
  same_but w p p' /\ start_of w p' = start_of w p /\ contents (list_of w p') = contents (list_of w p).
Proof.
  intros until x. intros Hh Hc H.
  assert (Hp0 : sized (bp_new h a)) by (intros []; split; [vm_compute; discriminate|discriminate|vm_compute; discriminate|discriminate]).
  destruct (history_addressed _ _ _ _ Hh Hp0) as [Hp Ha]; [intros []; reflexivity|].
  destruct (C50_failed_add _ _ _ _ _ _ _ (sized_call _ _ _ _ Hp Hc) H) as (H1 & H2 & H3). split; [exact H1|]. split.
  - destruct H3 as [H3|(H3 & H4 & _)]; [exact H3|]. now apply Ha in H3.
  - now rewrite H2.
Qed.
