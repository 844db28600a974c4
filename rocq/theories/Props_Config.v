(** * Props_Config: writing boot parameters into guest memory, properties C43-C46.

    [linux_write_bootparams be p m = (m', o)] (likewise [fdt_], [pvh_]): the call on boot
    parameters [p] ends with outcome [o] and guest memory [m'].  Vocabulary: SpecMem.v and
    [dest_ok] of SpecBz.v. *)
From Verif Require Import Base Base_proofs Io Mem SpecMem Mem_proofs SpecFile SpecBz BootParams Configurators Demo_elf.

(** ** Everything a checked write can do. *)
Lemma range_backed_more m a n : range_backed m a (n + 1) <-> range_backed m a n /\ backed m (a + n).
Proof.
  unfold range_backed. split.
  - intros H. split; [intros x H1 H2; apply H; lia|apply H; lia].
  - intros [H1 H2] x H3 H4. destruct (N.eq_dec x (a + n)) as [->|Hne]; [assumption|]. apply H1; lia.
Qed.

Lemma check_and_write_cases be m s bs e1 e2 m' o :
  wf_mem m = true -> check_and_write be m s bs e1 e2 = (m', o) ->
  (~ backed m (s + lenN bs) /\ o = Err e1 /\ m' = m) \/
  (backed m (s + lenN bs) /\ ~ range_backed m s (lenN bs) /\ o = Err e2 /\ same_outside m m' (in_range s (lenN bs))) \/
  (range_backed m s (lenN bs + 1) /\ o = Ok tt /\ mem_is_overlay m m' [(s, bs)]).
Proof.
  intros Hw H. unfold check_and_write in H. destruct (checked_offset m s (lenN bs)) as [x|] eqn:Ec.
  2:{ apply checked_offset_none in Ec; [|exact Hw]. inversion H; subst. left. auto. }
  apply checked_offset_iff in Ec as (-> & _ & Hb). right.
  destruct (write_slice be m bs s) as [m1 o1] eqn:Ew. pose proof (write_slice_frame _ _ _ _ _ _ Hw Ew) as (Hfr & _).
  apply write_slice_spec in Ew as (k & Hk & Hr & Hp & Hrb & Ho); [|exact Hw].
  destruct Ho as [[-> ->]|[-> Ho]]; inversion H; subst m1 o.
  - right. split; [apply range_backed_more; auto|]. split; [reflexivity|]. rewrite slice_full in Hp. split; [exact Hr|exact Hp].
  - left. split; [exact Hb|]. destruct Ho as [Ho|(_ & -> & Ho)]; [auto|]. change (lenN (@nil byte)) with 0 in Hb. rewrite N.add_0_r in Hb. contradiction.
Qed.

Lemma overlay_holds m m' segs a bs later :
  mem_is_overlay m m' (segs ++ (a, bs) :: later) ->
  (forall x s, In s later -> in_range a (lenN bs) x -> ~ in_range (fst s) (lenN (snd s)) x) ->
  holds_at m' a bs.
Proof.
  intros [_ Hov] Hd i b Hb. rewrite Hov, overlay_app.
  change (overlay ?g ((a, bs) :: later)) with (overlay (put g a bs) later). rewrite overlay_out.
  - now apply put_in.
  - intros a' bs' Hin. apply (Hd _ _ Hin). split; [lia|].
    assert (N.to_nat i < length bs)%nat by (apply nth_error_Some; congruence). unfold lenN. lia.
Qed.

Lemma overlay_one m m' a bs : mem_is_overlay m m' [(a, bs)] -> holds_at m' a bs.
Proof. intros H. apply (overlay_holds m m' [] a bs []); [exact H|]. intros x s []. Qed.
Lemma overlay_one_frame m m' a bs : mem_is_overlay m m' [(a, bs)] -> same_outside m m' (in_range a (lenN bs)).
Proof. intros [H1 H2]. split; [exact H1|]. intros x Hx. rewrite H2. unfold overlay. cbn [fold_left fst snd]. now apply put_out. Qed.

(** ** C43: Linux zero page and FDT. *)
Definition one_header_write (be : backend) (w : backend -> boot_info -> gmem -> gmem * outcome berror unit) (past fail : berror) : Prop :=
  forall p m m' o, wf_mem m = true -> w be p m = (m', o) ->
  let a := header_start p in let n := lenN (header p) in
  (* on success exactly the header was written, all of it *)
  (o = Ok tt -> mem_is_overlay m m' [(a, header p)] /\ holds_at m' a (header p) /\ range_backed m a n) /\
  (* it succeeds iff the header and one more byte are backed *)
  (o = Ok tt <-> range_backed m a (n + 1)) /\
  (* the only other outcomes, and what they leave behind *)
  (o = Err past <-> ~ backed m (a + n)) /\ (o = Err past -> m' = m) /\
  (o = Err fail <-> backed m (a + n) /\ ~ range_backed m a n) /\
  (o = Ok tt \/ o = Err past \/ o = Err fail) /\
  same_outside m m' (in_range a n).

Lemma check_and_write_property be e1 e2 : e1 <> e2 ->
  one_header_write be (fun be p m => check_and_write be m (header_start p) (header p) e1 e2) e1 e2.
Proof.
  intros Hne p m m' o Hw H. cbv zeta. apply check_and_write_cases in H; [|exact Hw].
  destruct H as [(Hb & -> & ->)|[(Hb & Hn & -> & Hf)|(Hb & -> & Hov)]].
  - split; [discriminate|]. split; [split; [discriminate|rewrite range_backed_more; intros [_ ?]; contradiction]|].
    split; [split; auto|]. split; [auto|]. split; [split; [congruence|intros [? _]; contradiction]|]. split; [auto|]. apply same_outside_refl.
  - split; [discriminate|]. split; [split; [discriminate|rewrite range_backed_more; intros [? _]; contradiction]|].
    split; [split; [congruence|contradiction]|]. split; [congruence|]. split; [split; auto|]. split; [auto|]. exact Hf.
  - apply range_backed_more in Hb as Hb'. destruct Hb' as [Hb1 Hb2].
    split; [intros _; split; [exact Hov|]; split; [now apply (overlay_one m)|exact Hb1]|].
    split; [split; auto|]. split; [split; [discriminate|contradiction]|]. split; [discriminate|].
    split; [split; [discriminate|intros [_ ?]; contradiction]|]. split; [auto|]. now apply overlay_one_frame.
Qed.

Theorem C43_linux_write : forall be,
  one_header_write be linux_write_bootparams (BLinux ZeroPagePastRamEnd) (BLinux ZeroPageSetup).
Proof. intros be. apply check_and_write_property. discriminate. Qed.
Theorem C43_fdt_write : forall be,
  one_header_write be fdt_write_bootparams (BFdt FDTPastRamEnd) (BFdt WriteFDTToMemory).
Proof. intros be. apply check_and_write_property. discriminate. Qed.

Definition cfg_mem : gmem := mkMem [mkRegion 0 0x1000; mkRegion 0x1000 0x1000; mkRegion 0x3000 0x1000] (fun _ => xff).
Definition cfg_params : boot_info := mkBoot [x01; x02; x03] 0xffe (Some [x04; x05]) (Some 0x100) (Some [x06]) (Some 0x3fff).
Example C43_applies : forall be, exists m1 m2,
  wf_mem cfg_mem = true /\
  linux_write_bootparams be cfg_params cfg_mem = (m1, Ok tt) /\ peek m1 0xffd 5 = [xff; x01; x02; x03; xff] /\
  fdt_write_bootparams be cfg_params cfg_mem = (m2, Ok tt) /\ peek m2 0xffd 5 = [xff; x01; x02; x03; xff] /\
  (exists m3, linux_write_bootparams be (mkBoot (zeros 16) 0x1ff8 None None None None) cfg_mem = (m3, Err (BLinux ZeroPagePastRamEnd))) /\
  (exists m3, fdt_write_bootparams be (mkBoot (zeros 16) 0x2ff8 None None None None) cfg_mem = (m3, Err (BFdt WriteFDTToMemory))).
Proof. intros []; (do 2 eexists; repeat split; try (eexists; vm_compute; reflexivity); vm_compute; reflexivity). Qed.

(** ** C44: PVH start of day structures. *)
(** The pieces written, in order: memory map, start info, modules. *)
Definition pvh_pieces (p : boot_info) : list (N * bytes) :=
  match sections_start p, sections p with Some a, Some v => [(a, v)] | _, _ => [] end ++
  [(header_start p, header p)] ++
  match modules_start p, modules p with Some a, Some v => [(a, v)] | _, _ => [] end.

Lemma overlay_cat m m1 m2 s1 s2 : mem_is_overlay m m1 s1 -> mem_is_overlay m1 m2 s2 -> mem_is_overlay m m2 (s1 ++ s2).
Proof.
  intros [R1 O1] [R2 O2]. split; [congruence|]. intros x. rewrite O2, overlay_app. apply overlay_ext. exact O1.
Qed.
Lemma dest_ok_regions be m m' a n : regions m' = regions m -> (dest_ok be m' a n <-> dest_ok be m a n).
Proof. intros H. unfold dest_ok. rewrite (range_backed_regions _ _ _ _ H), (backed_regions _ _ _ H). reflexivity. Qed.
Lemma write_slice_cases be m bs s m' o :
  wf_mem m = true -> write_slice be m bs s = (m', o) ->
  (dest_ok be m s (lenN bs) /\ o = Ok tt /\ mem_is_overlay m m' [(s, bs)]) \/
  (~ dest_ok be m s (lenN bs) /\ o = Err tt /\ same_outside m m' (in_range s (lenN bs))).
Proof.
  intros Hw H. pose proof (write_slice_frame _ _ _ _ _ _ Hw H) as (Hfr & _).
  pose proof H as H0. apply write_slice_spec in H as (k & Hk & Hr & Hp & Hrb & Ho); [|exact Hw].
  destruct Ho as [[-> ->]|[-> Ho]].
  - left. rewrite slice_full in Hp. split; [|split; [reflexivity|split; [exact Hr|exact Hp]]].
    split; [exact Hrb|]. intros E ->. destruct bs as [|b bs]; [|rewrite lenN_cons in E; lia].
    apply find_region_backed. cbn in H0. destruct (find_region m s); [eauto|]. discriminate.
  - right. split; [|auto]. intros [Hd1 Hd2]. destruct Ho as [Ho|(-> & -> & Ho)]; [contradiction|]. apply Ho, Hd2; reflexivity.
Qed.

(** The outcome of a PVH write, and the memory it leaves. *)
Lemma pvh_cases be p m m' o :
  wf_mem m = true -> pvh_write_bootparams be p m = (m', o) ->
  (sections p = None /\ o = Err (BPvh MemmapTableMissing) /\ m' = m) \/
  exists v, sections p = Some v /\
  ((sections_start p = None /\ o = Err (BPvh MemmapTableAddressMissing) /\ m' = m) \/
   exists s, sections_start p = Some s /\
   ((~ backed m (s + lenN v) /\ o = Err (BPvh MemmapTablePastRamEnd) /\ m' = m) \/
    (backed m (s + lenN v) /\ ~ range_backed m s (lenN v) /\ o = Err (BPvh MemmapTableSetup) /\ same_outside m m' (in_range s (lenN v))) \/
    range_backed m s (lenN v + 1) /\ let h := header_start p in let n := lenN (header p) in
    ((~ backed m (h + n) /\ o = Err (BPvh StartInfoPastRamEnd) /\ mem_is_overlay m m' [(s, v)]) \/
     (backed m (h + n) /\ ~ range_backed m h n /\ o = Err (BPvh StartInfoSetup) /\
        exists m1, mem_is_overlay m m1 [(s, v)] /\ same_outside m1 m' (in_range h n)) \/
     range_backed m h (n + 1) /\
     ((modules p = None /\ o = Ok tt /\ mem_is_overlay m m' [(s, v); (h, header p)]) \/
      exists w, modules p = Some w /\
      ((modules_start p = None /\ o = Err (BPvh ModulesAddressMissing) /\ mem_is_overlay m m' [(s, v); (h, header p)]) \/
       exists a, modules_start p = Some a /\
       ((~ dest_ok be m a (lenN w) /\ o = Err (BPvh ModulesSetup) /\
           exists m2, mem_is_overlay m m2 [(s, v); (h, header p)] /\ same_outside m2 m' (in_range a (lenN w))) \/
        (dest_ok be m a (lenN w) /\ o = Ok tt /\ mem_is_overlay m m' [(s, v); (h, header p); (a, w)]))))))).
Proof.
  intros Hw H. unfold pvh_write_bootparams in H. destruct (sections p) as [v|]; [right; exists v; split; [reflexivity|]|inversion H; subst; auto].
  destruct (sections_start p) as [s|]; [right; exists s; split; [reflexivity|]|inversion H; subst; auto].
  destruct (check_and_write be m s v _ _) as [m1 o1] eqn:E1. apply check_and_write_cases in E1; [|exact Hw].
  destruct E1 as [(Hb & -> & ->)|[(Hb & Hn & -> & Hf)|(Hb & -> & Hov1)]].
  { inversion H; subst. left. auto. }
  { inversion H; subst. right; left. auto. }
  right; right. split; [exact Hb|]. cbv zeta. assert (R1 : regions m1 = regions m) by apply Hov1.
  assert (Hw1 : wf_mem m1 = true) by now rewrite (wf_mem_regions _ _ R1).
  destruct (check_and_write be m1 (header_start p) (header p) _ _) as [m2 o2] eqn:E2. apply check_and_write_cases in E2; [|exact Hw1].
  rewrite (backed_regions _ _ _ R1), !(range_backed_regions _ _ _ _ R1) in E2.
  destruct E2 as [(Hb2 & -> & ->)|[(Hb2 & Hn & -> & Hf)|(Hb2 & -> & Hov2)]].
  { inversion H; subst. left. auto. }
  { inversion H; subst. right; left. eauto 6. }
  right; right. split; [exact Hb2|]. pose proof (overlay_cat _ _ _ _ _ Hov1 Hov2) as Hov. cbn [app] in Hov.
  assert (R2 : regions m2 = regions m) by apply Hov. assert (Hw2 : wf_mem m2 = true) by now rewrite (wf_mem_regions _ _ R2).
  destruct (modules p) as [w|]; [right; exists w; split; [reflexivity|]|inversion H; subst; auto].
  destruct (modules_start p) as [a|]; [right; exists a; split; [reflexivity|]|inversion H; subst; auto].
  destruct (write_slice be m2 w a) as [m3 o3] eqn:E3. apply write_slice_cases in E3; [|exact Hw2].
  rewrite (dest_ok_regions _ _ _ _ _ R2) in E3. destruct E3 as [(Hd & -> & Hov3)|(Hd & -> & Hf)]; inversion H; subst m3 o.
  - right. split; [exact Hd|]. split; [reflexivity|]. exact (overlay_cat _ _ _ _ _ Hov Hov3).
  - left. eauto.
Qed.

Theorem C44_pvh_writes : forall be p m m',
  wf_mem m = true -> pvh_write_bootparams be p m = (m', Ok tt) ->
  mem_is_overlay m m' (pvh_pieces p) /\
  (exists s v, sections_start p = Some s /\ sections p = Some v /\ In (s, v) (pvh_pieces p)) /\
  (forall w, modules p = Some w -> exists a, modules_start p = Some a /\ In (a, w) (pvh_pieces p)).
Proof.
  intros until m'. intros Hw H. apply pvh_cases in H; [|exact Hw]. unfold pvh_pieces.
  destruct H as [(_ & H & _)|(v & -> & [(_ & H & _)|(s & -> & [(_ & H & _)|[(_ & _ & H & _)|(_ & H)]])])]; try discriminate.
  destruct H as [(_ & H & _)|[(_ & _ & H & _)|(_ & H)]]; try discriminate.
  destruct H as [(-> & _ & Hov)|(w & -> & [(_ & H & _)|(a & -> & [(_ & H & _)|(_ & _ & Hov)])])]; try discriminate.
  - assert (E : match modules_start p with Some _ => @nil (N * bytes) | None => [] end = []) by now destruct (modules_start p).
    rewrite E. split; [exact Hov|]. split; [exists s, v; cbn; auto|discriminate].
  - split; [exact Hov|]. split; [exists s, v; cbn; auto|]. intros w' Ew. inversion Ew; subst w'. exists a. cbn. auto.
Qed.

(** Areas that nothing later overlaps are readable in full: the modules always, the start info if
    the modules do not overlap it, the memory map if neither does. *)
Definition disjoint (s t : N * bytes) : Prop :=
  forall x, in_range (fst s) (lenN (snd s)) x -> ~ in_range (fst t) (lenN (snd t)) x.
Theorem C44_pvh_readable : forall be p m m' pre a bs post,
  wf_mem m = true -> pvh_write_bootparams be p m = (m', Ok tt) ->
  pvh_pieces p = pre ++ (a, bs) :: post -> (forall t, In t post -> disjoint (a, bs) t) ->
  holds_at m' a bs /\ range_backed m a (lenN bs).
Proof.
  intros until post. intros Hw H Hp Hd. pose proof (C44_pvh_writes _ _ _ _ Hw H) as (Hov & _). rewrite Hp in Hov. split.
  - eapply overlay_holds; [exact Hov|]. intros x t Ht. apply (Hd t Ht).
  - assert (Hin : In (a, bs) (pvh_pieces p)) by (rewrite Hp; apply in_elt). clear Hp Hd Hov.
    apply pvh_cases in H; [|exact Hw]. unfold pvh_pieces in Hin.
    destruct H as [(_ & H & _)|(v & E1 & [(_ & H & _)|(s & E2 & [(_ & H & _)|[(_ & _ & H & _)|(B1 & H)]])])]; try discriminate.
    destruct H as [(_ & H & _)|[(_ & _ & H & _)|(B2 & H)]]; try discriminate.
    apply range_backed_more in B1 as [B1 _]. apply range_backed_more in B2 as [B2 _].
    rewrite E1, E2 in Hin. cbn [app In] in Hin. destruct Hin as [Hin|[Hin|Hin]]; [inversion Hin; subst; assumption|inversion Hin; subst; assumption|].
    destruct H as [(E3 & _)|(w & E3 & [(_ & H & _)|(c & E4 & [(_ & H & _)|(B3 & _)])])]; try discriminate.
    + rewrite E3 in Hin. destruct (modules_start p); destruct Hin.
    + rewrite E3, E4 in Hin. destruct Hin as [Hin|[]]. inversion Hin; subst. apply B3.
Qed.
(** The reserved fields of the result cannot hide a failure: success is exactly this. *)
Theorem C44_pvh_accepts_iff : forall be p m m' o,
  wf_mem m = true -> pvh_write_bootparams be p m = (m', o) ->
  (o = Ok tt <->
   (exists s v, sections_start p = Some s /\ sections p = Some v /\ range_backed m s (lenN v + 1)) /\
   range_backed m (header_start p) (lenN (header p) + 1) /\
   (forall w, modules p = Some w -> exists a, modules_start p = Some a /\ dest_ok be m a (lenN w))).
Proof.
  intros until o. intros Hw H. apply pvh_cases in H; [|exact Hw].
  destruct H as [(E & -> & _)|(v & E1 & [(E & -> & _)|(s & E2 & H)])].
  { split; [discriminate|]. intros ((? & ? & _ & ? & _) & _). congruence. }
  { split; [discriminate|]. intros ((? & ? & ? & _) & _). congruence. }
  destruct H as [(B1 & -> & _)|[(B1 & B1' & -> & _)|(B1 & H)]].
  { split; [discriminate|]. intros ((s' & v' & ? & ? & B) & _). apply range_backed_more in B as [_ B]. congruence. }
  { split; [discriminate|]. intros ((s' & v' & ? & ? & B) & _). apply range_backed_more in B as [B _]. congruence. }
  destruct H as [(B2 & -> & _)|[(B2 & B2' & -> & _)|(B2 & H)]].
  { split; [discriminate|]. intros (_ & B & _). apply range_backed_more in B as [_ B]. contradiction. }
  { split; [discriminate|]. intros (_ & B & _). apply range_backed_more in B as [B _]. contradiction. }
  destruct H as [(E3 & -> & _)|(w & E3 & [(E4 & -> & _)|(c & E4 & [(B3 & -> & _)|(B3 & -> & _)])])].
  - split; [intros _|reflexivity]. split; [eauto 6|]. split; [exact B2|]. intros; congruence.
  - split; [discriminate|]. intros (_ & _ & B). destruct (B _ E3) as (? & ? & _). congruence.
  - split; [discriminate|]. intros (_ & _ & B). destruct (B _ E3) as (? & ? & ?). congruence.
  - split; [intros _|reflexivity]. split; [eauto 6|]. split; [exact B2|]. intros w' E. assert (w' = w) as -> by congruence. eauto.
Qed.
Example C44_applies : forall be, exists m',
  pvh_write_bootparams be cfg_params cfg_mem = (m', Ok tt) /\
  peek m' 0xffd 5 = [xff; x01; x02; x03; xff] /\ peek m' 0xff 4 = [xff; x04; x05; xff] /\ peek m' 0x3ffe 2 = [xff; x06].
Proof. intros []; (eexists; repeat split; vm_compute; reflexivity). Qed.
Example C44_disjoint_applies : pvh_pieces cfg_params = [] ++ (0x100, [x04; x05]) :: [(0xffe, [x01; x02; x03]); (0x3fff, [x06])] /\
  forall t, In t [(0xffe, [x01; x02; x03]); (0x3fff, [x06])] -> disjoint (0x100, [x04; x05]) t.
Proof. split; [reflexivity|]. intros t [<-|[<-|[]]] x [H1 H2] [H3 H4]; cbn in *; unfold lenN in *; cbn in *; lia. Qed.

(** ** C45: PVH errors. *)
Theorem C45_pvh_errors : forall be p m m' o,
  wf_mem m = true -> pvh_write_bootparams be p m = (m', o) ->
  (sections p = None -> o = Err (BPvh MemmapTableMissing) /\ m' = m) /\
  (forall v, sections p = Some v ->
    (sections_start p = None -> o = Err (BPvh MemmapTableAddressMissing) /\ m' = m) /\
    (forall s, sections_start p = Some s ->
      (~ backed m (s + lenN v) -> o = Err (BPvh MemmapTablePastRamEnd) /\ m' = m) /\
      (backed m (s + lenN v) -> ~ range_backed m s (lenN v) -> o = Err (BPvh MemmapTableSetup)) /\
      (range_backed m s (lenN v + 1) ->
        (~ backed m (header_start p + lenN (header p)) ->
           o = Err (BPvh StartInfoPastRamEnd) /\ mem_is_overlay m m' [(s, v)]) /\
        (backed m (header_start p + lenN (header p)) -> ~ range_backed m (header_start p) (lenN (header p)) ->
           o = Err (BPvh StartInfoSetup)) /\
        (range_backed m (header_start p) (lenN (header p) + 1) -> forall w, modules p = Some w ->
           (modules_start p = None -> o = Err (BPvh ModulesAddressMissing) /\ mem_is_overlay m m' [(s, v); (header_start p, header p)]) /\
           (forall a, modules_start p = Some a -> ~ dest_ok be m a (lenN w) -> o = Err (BPvh ModulesSetup)))))).
Proof.
  intros until o. intros Hw H. apply pvh_cases in H; [|exact Hw].
  destruct H as [(E & -> & ->)|(v & E1 & H)].
  { split; [auto|]. intros; congruence. }
  split; [congruence|]. intros v' Ev. assert (v' = v) as -> by congruence. clear Ev.
  destruct H as [(E & -> & ->)|(s & E2 & H)]; [split; [auto|intros; congruence]|].
  split; [congruence|]. intros s' Es. assert (s' = s) as -> by congruence. clear Es.
  rewrite !range_backed_more.
  destruct H as [(B1 & -> & ->)|[(B1 & B1' & -> & _)|(B1 & H)]].
  { split; [auto|]. split; [intros; contradiction|]. intros [_ ?]. contradiction. }
  { split; [intros; contradiction|]. split; [auto|]. intros [? _]. contradiction. }
  apply range_backed_more in B1 as [B1 B1'].
  split; [intros; contradiction|]. split; [intros; contradiction|]. intros _.
  destruct H as [(B2 & -> & Hov)|[(B2 & B2' & -> & _)|(B2 & H)]].
  { split; [auto|]. split; [intros; contradiction|]. intros [_ ?]. contradiction. }
  { split; [intros; contradiction|]. split; [auto|]. intros [? _]. contradiction. }
  apply range_backed_more in B2 as [B2 B2']. split; [intros; contradiction|]. split; [intros; contradiction|]. intros _ w' Ew.
  destruct H as [(E3 & _)|(w & E3 & H)]; [congruence|]. assert (w' = w) as -> by congruence. clear Ew.
  destruct H as [(E4 & -> & Hov)|(a & E4 & H)]; [split; [auto|intros; congruence]|].
  split; [congruence|]. intros a' Ea. assert (a' = a) as -> by congruence. destruct H as [(_ & -> & _)|(? & _)]; [auto|intros; contradiction].
Qed.

(** Whatever happens, only the areas of the boot parameters are modified, and nothing panics. *)
Theorem C45_pvh_frame : forall be p m m' o,
  wf_mem m = true -> pvh_write_bootparams be p m = (m', o) ->
  same_outside m m' (fun x => exists s, In s (pvh_pieces p) /\ in_range (fst s) (lenN (snd s)) x) /\ (forall q, o <> Panic q).
Proof.
  intros until o. intros Hw H. apply pvh_cases in H; [|exact Hw]. set (P := fun x => _).
  assert (F0 : same_outside m m P) by apply same_outside_refl.
  assert (Fov : forall m1 m2 l, mem_is_overlay m1 m2 l -> (forall s, In s l -> In s (pvh_pieces p)) -> same_outside m1 m2 P).
  { intros m1 m2 l [R O] Hin. split; [exact R|]. intros x Hx. rewrite O. apply overlay_out. intros a bs Hab Hr. apply Hx. exists (a, bs). split; [auto|exact Hr]. }
  assert (Fso : forall m1 m2 a bs, same_outside m1 m2 (in_range a (lenN bs)) -> In (a, bs) (pvh_pieces p) -> same_outside m1 m2 P).
  { intros m1 m2 a bs Hs Hin. eapply same_outside_mono; [|exact Hs]. intros x Hx. exists (a, bs). auto. }
  destruct H as [(E & -> & ->)|(v & E1 & H)]; [split; [exact F0|discriminate]|].
  destruct H as [(E & -> & ->)|(s & E2 & H)]; [split; [exact F0|discriminate]|].
  assert (I1 : In (s, v) (pvh_pieces p)) by (unfold pvh_pieces; rewrite E1, E2; cbn; auto).
  assert (I2 : In (header_start p, header p) (pvh_pieces p)) by (unfold pvh_pieces; rewrite E1, E2; cbn; auto).
  destruct H as [(B1 & -> & ->)|[(B1 & B1' & -> & Hs)|(B1 & H)]]; [split; [exact F0|discriminate]| |].
  { split; [|discriminate]. eapply Fso; eassumption. }
  destruct H as [(B2 & -> & Hov)|[(B2 & B2' & -> & m1 & Hov & Hs)|(B2 & H)]].
  { split; [|discriminate]. eapply Fov; [exact Hov|]. intros t [<-|[]]. exact I1. }
  { split; [|discriminate]. apply (same_outside_trans m m1); [eapply Fov; [exact Hov|]; intros t [<-|[]]; exact I1|eapply Fso; eassumption]. }
  assert (F2 : forall mm, mem_is_overlay m mm [(s, v); (header_start p, header p)] -> same_outside m mm P).
  { intros mm Hov. eapply Fov; [exact Hov|]. intros t [<-|[<-|[]]]; assumption. }
  destruct H as [(E3 & -> & Hov)|(w & E3 & H)]; [split; [auto|discriminate]|].
  destruct H as [(E4 & -> & Hov)|(a & E4 & H)]; [split; [auto|discriminate]|].
  assert (I3 : In (a, w) (pvh_pieces p)) by (unfold pvh_pieces; rewrite E3, E4, !in_app_iff; cbn; auto).
  destruct H as [(_ & -> & m2 & Hov & Hs)|(_ & -> & Hov)]; (split; [|discriminate]).
  - apply (same_outside_trans m m2); [auto|]. eapply Fso; eassumption.
  - eapply Fov; [exact Hov|]. intros t [<-|[<-|[<-|[]]]]; assumption.
Qed.
(** Each of the eight errors occurs (there is no memory in 0x2000..0x2fff). *)
Example C45_applies : forall be,
  let run p := snd (pvh_write_bootparams be p cfg_mem) in
  run (mkBoot [x01] 0x10 None None None None) = Err (BPvh MemmapTableMissing) /\
  run (mkBoot [x01] 0x10 (Some [x02]) None None None) = Err (BPvh MemmapTableAddressMissing) /\
  run (mkBoot [x01] 0x10 (Some [x02]) (Some 0x3fff) None None) = Err (BPvh MemmapTablePastRamEnd) /\
  run (mkBoot [x01] 0x10 (Some [x02; x03]) (Some 0x2fff) None None) = Err (BPvh MemmapTableSetup) /\
  run (mkBoot [x01; x02] 0x2fff (Some [x02]) (Some 0x20) None None) = Err (BPvh StartInfoSetup) /\
  run (mkBoot [x01; x02] 0x3ffe (Some [x02]) (Some 0x20) None None) = Err (BPvh StartInfoPastRamEnd) /\
  run (mkBoot [x01] 0x10 (Some [x02]) (Some 0x20) (Some [x03]) None) = Err (BPvh ModulesAddressMissing) /\
  run (mkBoot [x01] 0x10 (Some [x02]) (Some 0x20) (Some [x03; x04]) (Some 0x3fff)) = Err (BPvh ModulesSetup).
Proof. intros []; vm_compute; repeat (split; [reflexivity|]); reflexivity. Qed.

(** ** C46: parameters that end exactly at the end of memory are rejected: the byte after the
    header is checked, too.  (The property one would expect, that whatever fits is accepted, is
    false; [C46_exact_fit_refuted] is a counterexample.) *)
Theorem C46_exact_fit_rejected : forall be p m,
  wf_mem m = true ->
  range_backed m (header_start p) (lenN (header p)) -> ~ backed m (header_start p + lenN (header p)) ->
  linux_write_bootparams be p m = (m, Err (BLinux ZeroPagePastRamEnd)) /\
  fdt_write_bootparams be p m = (m, Err (BFdt FDTPastRamEnd)).
Proof.
  intros until m. intros Hw _ Hb. unfold linux_write_bootparams, fdt_write_bootparams, check_and_write.
  apply checked_offset_none in Hb; [|exact Hw]. rewrite Hb. auto.
Qed.
(** Anything that fits and is followed by at least one byte of memory is accepted. *)
Theorem C46_fits_with_slack : forall be p m,
  wf_mem m = true -> range_backed m (header_start p) (lenN (header p) + 1) ->
  exists m1 m2, linux_write_bootparams be p m = (m1, Ok tt) /\ fdt_write_bootparams be p m = (m2, Ok tt) /\
    holds_at m1 (header_start p) (header p) /\ holds_at m2 (header_start p) (header p).
Proof.
  intros until m. intros Hw Hb.
  destruct (linux_write_bootparams be p m) as [m1 o1] eqn:E1. destruct (fdt_write_bootparams be p m) as [m2 o2] eqn:E2.
  destruct (C43_linux_write be p m m1 o1 Hw E1) as (A1 & A2 & _). destruct (C43_fdt_write be p m m2 o2 Hw E2) as (B1 & B2 & _).
  apply A2 in Hb as H1. apply B2 in Hb as H2. subst o1 o2. exists m1, m2.
  destruct (A1 eq_refl) as (_ & ? & _). destruct (B1 eq_refl) as (_ & ? & _). auto.
Qed.
Example C46_applies : wf_mem cfg_mem = true /\
  range_backed cfg_mem 0x3ffe 2 /\ ~ backed cfg_mem (0x3ffe + 2) /\ range_backed cfg_mem 0xffe (3 + 1).
Proof.
  split; [reflexivity|]. split; [|split].
  - intros x H1 H2. exists (mkRegion 0x3000 0x1000). cbn in *. split; [auto|]. lia.
  - intros (g & Hg & H1 & H2). cbn in Hg. destruct Hg as [<-|[<-|[<-|[]]]]; cbn in *; lia.
  - intros x H1 H2. destruct (N.lt_ge_cases x 0x1000); [exists (mkRegion 0 0x1000)|exists (mkRegion 0x1000 0x1000)]; cbn in *; (split; [auto|lia]).
Qed.
Theorem C46_exact_fit_refuted :
  ~ (forall be p m, wf_mem m = true -> range_backed m (header_start p) (lenN (header p)) ->
     exists m', linux_write_bootparams be p m = (m', Ok tt)).
Proof.
  intros H. destruct (H TryAccess (mkBoot (zeros 4096) 0 None None None None) (mkMem [mkRegion 0 4096] (fun _ => xff))) as (m' & E).
  - reflexivity.
  - intros x H1 H2. exists (mkRegion 0 4096). cbn in *. split; [auto|]. rewrite lenN_zeros in H2. lia.
  - unfold linux_write_bootparams in E. vm_compute in E. discriminate.
Qed.

(** PVH: the same for the memory map and the start info, but not for the modules, whose range is
    not checked beforehand. *)
Theorem C46_pvh_exact_fit_rejected : forall be p m v s,
  wf_mem m = true -> sections p = Some v -> sections_start p = Some s ->
  (range_backed m s (lenN v) -> ~ backed m (s + lenN v) ->
     pvh_write_bootparams be p m = (m, Err (BPvh MemmapTablePastRamEnd))) /\
  (range_backed m s (lenN v + 1) -> range_backed m (header_start p) (lenN (header p)) -> ~ backed m (header_start p + lenN (header p)) ->
     exists m', pvh_write_bootparams be p m = (m', Err (BPvh StartInfoPastRamEnd)) /\ mem_is_overlay m m' [(s, v)]) /\
  (forall a w, range_backed m s (lenN v + 1) -> range_backed m (header_start p) (lenN (header p) + 1) ->
     modules p = Some w -> modules_start p = Some a -> w <> [] -> range_backed m a (lenN w) ->
     exists m', pvh_write_bootparams be p m = (m', Ok tt) /\ holds_at m' a w).
Proof.
  intros until s. intros Hw E1 E2. destruct (pvh_write_bootparams be p m) as [m' o] eqn:H. pose proof H as H0. apply pvh_cases in H; [|exact Hw].
  destruct H as [(E & _)|(v' & E & H)]; [congruence|]. assert (v' = v) by congruence. subst v'.
  destruct H as [(E' & _)|(s' & E' & H)]; [congruence|]. assert (s' = s) by congruence. subst s'. split; [|split].
  - intros _ Hb. destruct H as [(_ & -> & ->)|[(Hc & _)|(Hc & _)]]; [reflexivity|contradiction|]. apply range_backed_more in Hc as [_ Hc]. contradiction.
  - intros Hb1 _ Hb. exists m'. apply range_backed_more in Hb1 as [B1 B2]. destruct H as [(Hc & _)|[(_ & Hc & _)|(_ & H)]]; [contradiction|contradiction|].
    cbv zeta in H. destruct H as [(_ & -> & Hov)|[(Hc & _)|(Hc & _)]]; [auto|contradiction|]. apply range_backed_more in Hc as [_ Hc]. contradiction.
  - intros a w Hb1 Hb2 E3 E4 Hne Hb3. exists m'.
    assert (o = Ok tt) as ->.
    { apply (C44_pvh_accepts_iff _ _ _ _ _ Hw H0). split; [eauto|]. split; [exact Hb2|]. intros w' Ew. assert (w' = w) by congruence. subst w'. exists a.
      split; [exact E4|]. split; [exact Hb3|]. intros L. apply lenN_zero in L. contradiction. }
    split; [reflexivity|]. destruct (C44_pvh_writes _ _ _ _ Hw H0) as (Hov & _). unfold pvh_pieces in Hov. rewrite E1, E2, E3, E4 in Hov.
    apply (overlay_holds m m' [(s, v); (header_start p, header p)] a w []); [exact Hov|]. intros x t [].
Qed.
