(** * Note_proofs: encoded note sequences; independence of build profile and of loop fuel. *)
From Verif Require Import Base Base_proofs Io Mem SpecMem Mem_proofs Layout Loader Elf SpecFile SpecElf File_proofs Align_proofs Elf_proofs Elf_proofs2.
Open Scope loader_scope.

Lemma lenN_padded bs : lenN (padded bs) = pad4 (lenN bs).
Proof. unfold padded. rewrite lenN_app, lenN_zeros. pose proof (pad4_spec (lenN bs)). lia. Qed.

Lemma lenN_enc_note n :
  lenN (enc_note n) = 12 + pad4 (lenN (note_name n)) + pad4 (lenN (note_desc n)).
Proof. unfold enc_note. rewrite !lenN_app, !lenN_le_enc, !lenN_padded. lia. Qed.

Lemma slice_mid_eq {A} (l l1 l2 l3 : list A) o n :
  l = l1 ++ l2 ++ l3 -> lenN l1 = o -> lenN l2 = n -> slice l o n = l2.
Proof. intros -> <- <-. apply slice_app_mid. Qed.

Lemma pad4_small n : n <= 2 ^ 32 - 4 -> pad4 n < 2 ^ 32.
Proof.
  intros H. pose proof (pad4_spec n) as (H1 & H2 & H3). change (2 ^ 32) with 4294967296 in *.
  pose proof (N.div_mod (pad4 n) 4 ltac:(lia)). lia.
Qed.

Lemma slice_prefix_eq {A} (l l2 l3 : list A) n : l = l2 ++ l3 -> n <= lenN l2 -> slice l 0 n = slice l2 0 n.
Proof. intros -> H. apply slice_app_l. lia. Qed.

Lemma scan_notes f maxpos start fsz ns : forall pre,
  lenN f <= maxpos -> start + fsz <= lenN f -> Forall note_wf ns ->
  part f start fsz = pre ++ enc_notes ns ->
  note_scan f maxpos start fsz (lenN pre) (notes_say ns).
Proof.
  induction ns as [|n ns IH]; intros pre Hmp Hin Hwf Heq.
  - assert (lenN (part f start fsz) = lenN pre) as Hl by (rewrite Heq; cbn [enc_notes map concat]; now rewrite app_nil_r).
    rewrite part_slice, lenN_slice in Hl. apply ns_end. lia.
  - inversion Hwf as [|? ? (Ht & Hn & Hd) Hwf']; subst.
    unfold enc_notes in Heq. cbn [map concat] in Heq. fold (enc_notes ns) in Heq.
    rewrite part_slice in Heq. set (E := slice f start fsz) in *.
    assert (HlE : lenN E = fsz) by (unfold E; rewrite lenN_slice; lia).
    assert (Hlen : lenN E = lenN pre + (12 + pad4 (lenN (note_name n)) + pad4 (lenN (note_desc n))) + lenN (enc_notes ns)).
    { rewrite Heq, !lenN_app, lenN_enc_note. lia. }
    assert (Hsl : forall o k, o + k <= fsz -> slice f (start + o) k = slice E o k).
    { intros o k Hok. unfold E. rewrite slice_slice by assumption. reflexivity. }
    set (na := note_name n) in *. set (de := note_desc n) in *.
    set (tail := enc_notes ns) in *.
    set (E0 := le_enc 4 (lenN na)) in *. set (E1 := le_enc 4 (lenN de)) in *. set (E2 := le_enc 4 (note_type n)) in *.
    assert (HE0 : lenN E0 = 4) by (apply lenN_le_enc).
    assert (HE1 : lenN E1 = 4) by (apply lenN_le_enc).
    assert (HE2 : lenN E2 = 4) by (apply lenN_le_enc).
    assert (Heq' : E = pre ++ E0 ++ E1 ++ E2 ++ padded na ++ padded de ++ tail).
    { rewrite Heq. unfold enc_note. fold na de E0 E1 E2. rewrite <- !app_assoc. reflexivity. }
    assert (F0 : u32at f (start + lenN pre) = lenN na).
    { rewrite <- le_dec_slice4, Hsl by lia. rewrite (slice_mid_eq E pre E0 (E1 ++ E2 ++ padded na ++ padded de ++ tail)) by assumption || reflexivity.
      apply le_dec_enc_small. change (256 ^ N.of_nat 4) with 4294967296. change (2 ^ 32) with 4294967296 in Hn. lia. }
    assert (F1 : u32at f (start + lenN pre + 4) = lenN de).
    { rewrite <- le_dec_slice4, <- N.add_assoc, Hsl by lia.
      rewrite (slice_mid_eq E (pre ++ E0) E1 (E2 ++ padded na ++ padded de ++ tail)).
      - apply le_dec_enc_small. change (256 ^ N.of_nat 4) with 4294967296. change (2 ^ 32) with 4294967296 in Hd. lia.
      - rewrite Heq', <- !app_assoc. reflexivity.
      - rewrite lenN_app. lia.
      - exact HE1. }
    assert (F2 : u32at f (start + lenN pre + 8) = note_type n).
    { rewrite <- le_dec_slice4, <- N.add_assoc, Hsl by lia.
      rewrite (slice_mid_eq E (pre ++ E0 ++ E1) E2 (padded na ++ padded de ++ tail)).
      - apply le_dec_enc_small. exact Ht.
      - rewrite Heq', <- !app_assoc. reflexivity.
      - rewrite !lenN_app. lia.
      - exact HE2. }
    assert (F3 : lenN na = 4 -> start + lenN pre + 16 <= lenN f /\ part f (start + lenN pre + 12) 4 = na).
    { intros H4. assert (pad4 (lenN na) = 4) as Hp4 by (rewrite H4; reflexivity). split; [lia|].
      rewrite part_slice, <- N.add_assoc, Hsl by lia.
      apply (slice_mid_eq E (pre ++ E0 ++ E1 ++ E2) na (padded de ++ tail)).
      - rewrite Heq', <- !app_assoc. do 4 f_equal. f_equal. unfold padded. rewrite Hp4, H4. change (zeros (4 - 4)) with (@nil byte). apply app_nil_r.
      - rewrite !lenN_app. lia.
      - exact H4. }
    unfold notes_say. cbn [find].
    destruct (is_pvh_note n) eqn:Ep.
    + unfold is_pvh_note in Ep. apply andb_true_iff in Ep as [Ep1 Ep2]. apply N.eqb_eq in Ep1. fold na in Ep2.
      destruct (list_eq_dec _ na _) as [Ena|]; [clear Ep2|discriminate].
      assert (H4 : lenN na = 4) by (rewrite Ena; reflexivity). destruct (F3 H4) as [G1 G2]. rewrite Ena in G2.
      assert (Hp4 : pad4 (lenN na) = 4) by (rewrite H4; reflexivity).
      fold de. destruct (N.ltb_spec (lenN de) 4) as [Hs|Hs].
      * apply ns_small; try congruence; lia.
      * pose proof (pad4_spec (lenN de)).
        replace (u32at de 0) with (u32at f (start + lenN pre + 16)).
        { apply ns_found; try congruence; lia. }
        rewrite <- !le_dec_slice4, <- (N.add_assoc start), Hsl by lia. f_equal.
        transitivity (slice (padded de ++ tail) 0 4).
        { rewrite Heq'. rewrite (app_assoc E2), (app_assoc E1), (app_assoc E0), (app_assoc pre).
          rewrite slice_app_r by (rewrite !lenN_app, lenN_padded; lia). f_equal. rewrite !lenN_app, lenN_padded. lia. }
        rewrite slice_app_l by (rewrite lenN_padded; lia). unfold padded. apply slice_app_l. lia.
    + replace (lenN pre) with (lenN pre) by reflexivity.
      apply ns_skip.
      * lia.
      * lia.
      * intros G1 G2. rewrite F0 in G2. destruct (F3 G2) as [G3 G4]. split; [exact G3|]. rewrite G4. intros Hx.
        unfold is_pvh_note in Ep. fold na in Ep. rewrite F2 in G1. rewrite G1, Hx in Ep. discriminate Ep.
      * rewrite F0. now apply pad4_small.
      * rewrite F1. now apply pad4_small.
      * rewrite F0, F1. lia.
      * rewrite F0, F1. fold (notes_say ns).
        replace (lenN pre + 12 + pad4 (lenN na) + pad4 (lenN de)) with (lenN (pre ++ enc_note n)).
        { apply IH; try assumption. rewrite part_slice. fold E tail. rewrite Heq, <- app_assoc. reflexivity. }
        rewrite lenN_app, lenN_enc_note. fold na de. lia.
Qed.

Lemma notes_result f maxpos p ns :
  lenN f <= maxpos -> ph_offset p + ph_filesz p <= lenN f -> Forall note_wf ns ->
  part f (ph_offset p) (ph_filesz p) = enc_notes ns ->
  note_result f maxpos p (notes_say ns).
Proof.
  intros H1 H2 H3 H4. apply nr_scan; [lia|]. exact (scan_notes f maxpos _ _ ns [] H1 H2 H3 H4).
Qed.

(** ** debug and release builds agree unless the debug build panics *)
Definition agree {A} (x y : L A) : Prop :=
  forall r m, x r m = y r m \/ exists r' m' p, x r m = (r', m', Panic p).

Lemma agree_refl {A} (x : L A) : agree x x.
Proof. intros r m. now left. Qed.
Lemma agree_bind {A B} (x y : L A) (f g : A -> L B) :
  agree x y -> (forall a, agree (f a) (g a)) -> agree (lbind x f) (lbind y g).
Proof.
  intros H1 H2 r m. unfold lbind. destruct (H1 r m) as [E|(r' & m' & p & E)].
  - rewrite E. destruct (y r m) as [[r1 m1] [a|e|p]]; [apply H2|now left|right; eauto].
  - rewrite E. right. eauto.
Qed.
Lemma agree_pure {A} (x y : outcome lerror A) : (x = y \/ exists p, x = Panic p) -> agree (lpure x) (lpure y).
Proof. intros [-> |[p ->]] r m; [now left|right]. unfold lpure. eauto. Qed.
Lemma agree_if {A} (b : bool) (x y x' y' : L A) : agree x x' -> agree y y' -> agree (if b then x else y) (if b then x' else y').
Proof. destruct b; auto. Qed.
Lemma uadd_agree {E} a b : @uadd E true a b = uadd false a b \/ exists p, @uadd E true a b = Panic p.
Proof. unfold uadd. destruct (a + b <? two64); eauto. Qed.
Lemma align_up_agree a n : align_up true a n = align_up false a n \/ exists p, align_up true a n = Panic p.
Proof.
  unfold align_up. destruct (negb (is_power_of_two n)); [now left|]. unfold usub.
  destruct (1 <=? n); cbn [obind]; [|eauto]. destruct (N.land a (n - 1) =? 0); [now left|]. apply uadd_agree.
Qed.
Lemma note_loop_agree fuel : forall phdr rs nh, agree (note_loop true fuel phdr rs nh) (note_loop false fuel phdr rs nh).
Proof.
  induction fuel as [|fuel IH]; intros phdr rs nh; [apply agree_refl|]. cbn [note_loop].
  apply agree_if; [apply agree_refl|]. apply agree_bind; [apply agree_refl|]. intros nh'.
  apply agree_bind; [apply agree_refl|]. intros found. apply agree_if; [apply agree_refl|].
  apply agree_bind; [apply agree_pure, align_up_agree|]. intros na.
  apply agree_bind; [apply agree_pure, align_up_agree|]. intros de.
  apply agree_if; [apply agree_refl|]. apply agree_bind; [apply agree_refl|]. intros rs'.
  apply agree_bind; [apply agree_pure, uadd_agree|]. intros t. apply agree_bind; [apply agree_refl|]. intros _. apply IH.
Qed.
Lemma parse_elf_note_agree phdr : agree (parse_elf_note true phdr) (parse_elf_note false phdr).
Proof.
  unfold parse_elf_note. apply agree_bind; [apply agree_refl|]. intros _.
  apply agree_bind; [intros r m; apply note_loop_agree|]. intros res. cbv zeta.
  apply agree_if; [apply agree_refl|]. apply agree_bind; [apply agree_pure, align_up_agree|]. intros na. apply agree_refl.
Qed.
Lemma load_phdrs_agree be off phdrs : forall kend cap, agree (load_phdrs true be off phdrs kend cap) (load_phdrs false be off phdrs kend cap).
Proof.
  induction phdrs as [|b phdrs IH]; intros kend cap; [apply agree_refl|]. cbn [load_phdrs].
  apply agree_if.
  - apply agree_bind; [|intros c; apply IH]. apply agree_if; [|apply agree_refl]. destruct off; [apply agree_refl|apply parse_elf_note_agree].
  - apply agree_bind; [apply agree_refl|]. intros _. apply agree_bind; [apply agree_refl|]. intros mo.
    apply agree_bind; [apply agree_refl|]. intros _. apply agree_bind; [apply agree_refl|]. intros ke. apply IH.
Qed.
Lemma elf_load_agree be off highmem : agree (elf_load true be off highmem) (elf_load false be off highmem).
Proof.
  unfold elf_load. repeat (apply agree_bind; [apply agree_refl|intros ?]).
  apply agree_bind; [apply load_phdrs_agree|]. intros res. apply agree_refl.
Qed.

(** ** more fuel changes nothing *)
Definition ext {A} (x y : L A) : Prop :=
  forall r m r' m' o, x r m = (r', m', o) -> o <> Panic OutOfFuel -> y r m = (r', m', o).
Lemma ext_refl {A} (x : L A) : ext x x.
Proof. intros r m r' m' o H _. exact H. Qed.
Lemma ext_bind {A B} (x y : L A) (f g : A -> L B) :
  ext x y -> (forall a, ext (f a) (g a)) -> ext (lbind x f) (lbind y g).
Proof.
  intros H1 H2 r m r' m' o H Ho. unfold lbind in *. destruct (x r m) as [[r1 m1] o1] eqn:E.
  assert (o1 <> Panic OutOfFuel) as Ho1.
  { intros ->. inversion H; subst. contradiction. }
  rewrite (H1 _ _ _ _ _ E Ho1). destruct o1; [now apply H2|exact H|exact H].
Qed.
Lemma ext_if {A} (b : bool) (x y x' y' : L A) : ext x x' -> ext y y' -> ext (if b then x else y) (if b then x' else y').
Proof. destruct b; auto. Qed.

Lemma note_loop_fuel bld fuel : forall k phdr rs nh,
  ext (note_loop bld fuel phdr rs nh) (note_loop bld (fuel + k) phdr rs nh).
Proof.
  induction fuel as [|fuel IH]; intros k phdr rs nh.
  { intros r m r' m' o H Ho. cbn in H. inversion H; subst. contradiction. }
  cbn [Nat.add note_loop]. apply ext_if; [apply ext_refl|].
  apply ext_bind; [apply ext_refl|]. intros nh1. apply ext_bind; [apply ext_refl|]. intros found.
  apply ext_if; [apply ext_refl|]. apply ext_bind; [apply ext_refl|]. intros na. apply ext_bind; [apply ext_refl|]. intros de.
  apply ext_if; [apply ext_refl|]. apply ext_bind; [apply ext_refl|]. intros rs1. apply ext_bind; [apply ext_refl|]. intros t.
  apply ext_bind; [apply ext_refl|]. intros _. apply IH.
Qed.

(** The loop as called by the note parser: any larger iteration bound gives the same result,
    and the bound is never hit. *)
Lemma note_loop_bound bld phdr k r m :
  wf_reader r -> rd_pos r = phdr_get "p_offset" phdr ->
  note_loop bld (note_fuel r + k) phdr 0 (default_of Elf64_Nhdr) r m =
  note_loop bld (note_fuel r) phdr 0 (default_of Elf64_Nhdr) r m /\
  forall p, snd (note_loop bld (note_fuel r) phdr 0 (default_of Elf64_Nhdr) r m) <> Panic p.
Proof.
  intros (Hl & _) Hp. destruct (note_loop bld (note_fuel r) phdr 0 (default_of Elf64_Nhdr) r m) as [[r' m'] o] eqn:E.
  pose proof E as E'.
  apply (note_loop_spec bld phdr (rd_data r) (rd_maxpos r) _ _ eq_refl eq_refl Hl) in E';
    [|reflexivity|reflexivity|lia|exact (proj1 (note_fuel_ok r 0))
     |exact (proj2 (note_fuel_ok r (phdr_get "p_offset" phdr + 0)))].
  destruct E' as (_ & _ & Hpost).
  assert (Ho : forall p, o <> Panic p).
  { intros p ->. destruct Hpost as [[(_ & ?)|(_ & ?)]|[(? & ? & ? & _)|[(? & ? & ? & _)|(? & ? & _)]]]; discriminate. }
  split; [|exact Ho]. apply (note_loop_fuel bld (note_fuel r) k _ _ _ _ _ _ _ _ E). apply Ho.
Qed.
